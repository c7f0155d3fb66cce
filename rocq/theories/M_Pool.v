(** * Model of grams_counts_pool and grams_probs_pool (include/utils/pools.hpp 47-166)

    The two pools differ only in the payload [A] of a record (a count, or a
    probability and a back-off).  [p_cap]: capacity of m_strings_pool;
    [p_moved]: an insertion has reallocated it, so that m_base_addr (taken in the
    constructor) and the byte ranges of the index dangle. *)
From Verif Require Import Prelude M_Text.

Record pool (A : Type) := mkpool { p_max : N; p_cap : N; p_moved : bool; p_index : list (byte_range * A); p_data : list N }.
Arguments mkpool {A}. Arguments p_max {A}. Arguments p_cap {A}. Arguments p_moved {A}. Arguments p_index {A}. Arguments p_data {A}.

(** constructors, lines 48-56 and 103-111: reserve(num_bytes) *)
Definition pool_new {A} (num_bytes : N) : pool A := mkpool num_bytes num_bytes false [] [].

(** append, lines 58-84 and 113-137; the gram is given by its bytes *)
Definition pool_append {A} (p : pool A) (gram : list N) (a : A) : bool * pool A :=
  let begin_ := lenN (p_data p) in
  let gram_bytes := lenN gram in
  if gram_bytes =? 0 then (true, p)
  else if p_max p <? begin_ + gram_bytes then (false, p)
  else
    let data := p_data p ++ gram in
    let end_ := lenN data in
    (true, mkpool (p_max p) (p_cap p) (p_moved p || (p_cap p <? end_)) (p_index p ++ [((begin_, end_), a)]) data).
(** clear, lines 86-89 and 152-155 *)
Definition pool_clear {A} (p : pool A) : pool A := mkpool (p_max p) (p_cap p) (p_moved p) [] [].

(** reading the bytes of the k-th record of index() *)
Definition pool_record {A} (p : pool A) (k : N) : res (list N * A) :=
  ' (r, a) <- rd (p_index p) k ;;
  if p_moved p then UB
  else if (fst r <=? snd r) && (snd r <=? lenN (p_data p)) then Ok (firstn (N.to_nat (snd r - fst r)) (skipn (N.to_nat (fst r)) (p_data p)), a)
  else UB.

(** load_from, lines 139-150, on the parsed lines *)
Fixpoint pool_load_lines (p : pool N) (lines : list (list N)) : res (pool N) :=
  match lines with
  | [] => Ok p
  | l :: rest =>
      ' (br, count) <- parse_count_line l ;;
      let gram := firstn (N.to_nat (snd br - fst br)) (skipn (N.to_nat (fst br)) (c_str l)) in
      let '(ok, p) := pool_append p gram count in
      if ok then pool_load_lines p rest else Throw
  end.
Definition pool_load (p : pool N) (lines : list (list N)) : res (pool N) := pool_load_lines (pool_clear p) lines.
