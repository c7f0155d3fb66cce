(** * Model of quantized_sequence_collection (include/sequences/sequence_collections.hpp 12-187)
    and of ARPA lines (include/utils/parsers.hpp 31-57)

    Floats as in M_Score; [double] is precision 53, emax 1024. *)
From Coq Require Import Floats.SpecFloat.
From Verif Require Import Prelude M_Word M_Text M_Score.

(** ** float arithmetic and the bit patterns of floats *)
Definition fsub (x y : F) : F := SFsub 24%Z 128%Z x y.
Definition flt (x y : F) : bool := SFltb x y.
Definition feqb (x y : F) : bool := SFeqb x y.
(** -infinity *)
Definition fninf : F := S754_infinity true.
(** conversion of a double to float; of a float to double is the identity on values *)
Definition d2f (x : spec_float) : F :=
  match x with
  | S754_finite s m e => binary_normalize 24%Z 128%Z (cond_Zopp s (Zpos m)) e s
  | x => x
  end.
(** [static_cast<float>] of an integer *)
Definition n2f (n : N) : F := binary_normalize 24%Z 128%Z (Z.of_N n) 0%Z false.
(** double addition and division *)
Definition dadd (x y : spec_float) : spec_float := SFadd 53%Z 1024%Z x y.
Definition ddiv (x y : spec_float) : spec_float := SFdiv 53%Z 1024%Z x y.

(** IEEE 754 binary32 interchange format; one pattern stands for every NaN *)
Definition f_bits (x : F) : N :=
  let sg (s : bool) := if s then 2 ^ 31 else 0 in
  match x with
  | S754_zero s => sg s
  | S754_infinity s => sg s + 255 * 2 ^ 23
  | S754_nan => 255 * 2 ^ 23 + 2 ^ 22
  | S754_finite s m e =>
      if N.pos m <? 2 ^ 23 then sg s + N.pos m
      else sg s + Z.to_N (e + 150) * 2 ^ 23 + (N.pos m - 2 ^ 23)
  end.
Definition f_of_bits (b : N) : F :=
  let s := N.testbit b 31 in
  let ex := (b / 2 ^ 23) mod 256 in
  let fr := b mod 2 ^ 23 in
  if ex =? 0 then match fr with 0 => S754_zero s | N.pos m => S754_finite s m (-149) end
  else if ex =? 255 then (if fr =? 0 then S754_infinity s else S754_nan)
  else match fr + 2 ^ 23 with 0 => S754_nan | N.pos m => S754_finite s m (Z.of_N ex - 150) end.

(** ** quantized_sequence_collection *)
(** members, lines 121-125 and 184-186 *)
Record qsc := mkqsc { q_bits : list N; q_seqs : list (list F) }.
Definition qsc_empty : qsc := mkqsc [] [].

(** std::lower_bound: the first position in [first, first + count) whose element is not below the value *)
Fixpoint lower_bound (fuel : nat) (data : list F) (first count : N) (v : F) : res N :=
  if count =? 0 then Ok first else
  match fuel with
  | O => UB
  | S f =>
      let step := count / 2 in
      x <- rd data (first + step) ;;
      if flt x v then lower_bound f data (first + step + 1) (count - step - 1) v
      else lower_bound f data first step v
  end.
(** builder::rank, lines 30-51 *)
Definition q_rank (b : qsc) (order_m1 : N) (value : F) (reserved : N) : res N :=
  if (reserved =? 1) && feqb value fzero then Ok 0 else
  data <- rd (q_seqs b) order_m1 ;;
  let n := lenN data in
  above <- lower_bound (S (length data)) data reserved (n - reserved) value ;;
  if above =? reserved then Ok reserved
  else if above =? n then Ok (n - 1)
  else
    p <- rd data (above - 1) ;;
    a <- rd data above ;;
    Ok (above - N.b2n (flt (fsub value p) (fsub a value))).

(** one bin: std::accumulate(start, finish, 0.0) / float(finish - start), lines 66-67 *)
Definition bin_average (xs : list F) : F :=
  d2f (ddiv (fold_left dadd xs (S754_zero false)) (n2f (lenN xs))).
(** make_bins, lines 53-70: one round per bin; the loop variable is a uint32_t *)
Fixpoint make_bins_loop (k : nat) (seq : list F) (num_bins i start : N) (averages : list F) : res (list F) :=
  match k with
  | O => Ok averages
  | S k =>
      let finish := (mul64 (lenN seq) (i + 1)) / num_bins in
      c <- (if finish =? start
            then (if i =? 0 then Ok fninf else rd averages (lenN averages - 1))
            else Ok (bin_average (firstn (N.to_nat (finish - start)) (skipn (N.to_nat start) seq)))) ;;
      make_bins_loop k seq num_bins (i + 1) finish (averages ++ [c])
  end.
(** a num_bins above 2^32 - 1 makes the loop endless *)
Definition make_bins (seq : list F) (averages : list F) (num_bins : N) : res (list F) :=
  if num_bins <? 2 ^ 32 then make_bins_loop (N.to_nat num_bins) seq num_bins 0 0 averages else UB.
(** check_quantization_bits, lines 72-85 *)
Definition check_qbits (q n : N) : res unit :=
  if (q <? 2) || (32 <? q) then Throw
  else let num_bins := shl 1 q in if (0 <? n) && (n <? num_bins) then Throw else Ok tt.
(** build_backoffs_sequence, lines 87-99; [sorted]: the sequence after std::sort *)
Definition build_backoffs (b : qsc) (sorted : list F) (q : N) : res qsc :=
  _ <- check_qbits q (lenN sorted) ;;
  let num_bins := shl 1 q in
  averages <- make_bins sorted [fzero] (num_bins - 1) ;;
  Ok (mkqsc (q_bits b ++ [q]) (q_seqs b ++ [averages])).
(** build_probs_sequence, lines 101-112 *)
Definition build_probs (b : qsc) (sorted : list F) (q : N) : res qsc :=
  _ <- check_qbits q (lenN sorted) ;;
  averages <- make_bins sorted [] (shl 1 q) ;;
  Ok (mkqsc (q_bits b ++ [q]) (q_seqs b ++ [averages])).
(** access, lines 142-146 *)
Definition q_access (b : qsc) (order_m1 i : N) : res F := s <- rd (q_seqs b) order_m1 ;; rd s i.
(** quantization_bits, lines 160-162 and 114-117 *)
Definition q_qbits (b : qsc) (order_m1 : N) : res N := rd (q_bits b) order_m1.

(** prob_rank | (backoff_rank << probs_quantization_bits): mph_prob_lm.hpp 94-100, trie_prob_lm.hpp 274-282 *)
Definition rank_pack (pq prob_rank backoff_rank : N) : N := N.lor prob_rank (shl backoff_rank pq).
(** the mask and the shift that take it apart: mph_prob_lm.hpp 224-229, trie_prob_lm.hpp (score) *)
Definition rank_unpack (bits rank : N) : N * N := (N.land rank (sub64 (shl 1 bits) 1), shr rank bits).

(** ** ARPA lines *)
Record prec := mkprec { r_gram : byte_range; r_prob : F; r_backoff : F }.
(** parse_prob_backoff_line, lines 31-57.  [sd buf pos]: the C library's strtod, with its result
    converted to float, and the position where it stopped. *)
Definition parse_arpa_line (sd : list N -> N -> F * N) (line : list N) : res prec :=
  let buf := c_str line in
  let '(prob, end_) := sd buf 0 in
  let prob := if flt fzero prob then fzero else prob in
  let first := end_ + 1 in
  if lenN line <? first then UB else
  pos <- seek_end (S (length buf)) buf first (lenN line) c_tab ;;
  let backoff := if pos =? lenN line then fzero else fst (sd buf pos) in
  Ok (mkprec (first, pos) prob backoff).
