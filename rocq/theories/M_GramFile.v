(** * Model of the reading of a count file: grams_gzparser and count_records_iterator (include/utils/parsers.hpp 219-304)

    A file is its decompressed bytes ([boost::iostreams] is not modelled); getline is that of M_ArpaFile. *)
From Coq Require Import Floats.SpecFloat.
From Verif Require Import Prelude M_Word M_Text M_ArpaFile.

(** std::stoull(line) [C++ library]: as strtoull, with an exception when there is no digit, or on overflow.
    In the constructor (lines 283-292) the first is caught and ends in exit(1), the second is not caught:
    both are Throw here. *)
Definition stoull (line : list N) : res N :=
  let buf := c_str line in
  p <- skip_space (S (length buf)) buf 0 ;;
  c <- rd buf p ;;
  let neg := c =? 45 in
  let p := if (c =? 45) || (c =? 43) then p + 1 else p in
  d <- rd buf p ;;
  if negb (is_digit d) then Throw else
  v <- read_digits (S (length buf)) buf p 0 ;;
  if 2 ^ 64 <=? v then Throw else Ok (if neg then sub64 0 v else v).

(** constructor, lines 261-293, on a file that exists: m_num_lines and the stream *)
Definition gp_open (data : list N) : res (N * ist) :=
  let '(s, line) := getline (mkist data 0 false false) [] in
  match line with [] => Throw | _ => n <- stoull line ;; if n =? 0 then Throw else Ok (n, s) end.

(** the lines that the loop [for (auto const& l : gp)] parses: begin() reads one line (lines 221-226,
    299-301), operator++ reads the next (lines 232-240), the loop ends after m_num_lines steps
    (lines 242-244, 303-305).  [line] is what m_cur_line holds before the next getline. *)
Fixpoint gp_lines (n : nat) (s : ist) (line : list N) : list (list N) :=
  match n with
  | O => []
  | S n => let '(s, l) := getline s line in l :: gp_lines n s l
  end.
Definition gram_lines (data : list N) : res (list (list N)) :=
  ' (n, s) <- gp_open data ;; Ok (gp_lines (N.to_nat n) s []).
