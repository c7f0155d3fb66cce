(** * Model of sequence_collection (include/sequences/sequence_collections.hpp 189-325) *)
From Verif Require Import Prelude M_Word M_Bits M_CompactVector M_Text.

(** builder::eat_value, lines 206-212.  The unordered_map is a list of (value, frequency)
    with distinct values; its iteration order is not relied upon (see below). *)
Definition eat_value (m : list (N * N)) (val : N) : list (N * N) :=
  if existsb (fun p => fst p =? val) m
  then map (fun p => if fst p =? val then (fst p, snd p + 1) else p) m
  else m ++ [(val, 1)].

(** std::sort by increasing first component (lines 250-253) *)
Fixpoint insert_fst (p : N * N) (l : list (N * N)) : list (N * N) :=
  match l with
  | [] => [p]
  | q :: r => if fst p <? fst q then p :: l else q :: insert_fst p r
  end.
Definition sort_fst (l : list (N * N)) : list (N * N) := fold_right insert_fst [] l.

(** builder members, lines 282-284 *)
Record scb := mkscb { sb_pairs : list (list (N * N)); sb_seqs : list cv }.
Definition scb_empty : scb := mkscb [] [].

(** build_sequence, lines 215-255.  [sorted]: the vector after the first std::sort, by
    decreasing frequency; the order of equal frequencies (and of the hash table) is left
    open by C++, so the sorted vector is a parameter: any permutation of the map. *)
Definition sc_build_sequence (b : scb) (m sorted : list (N * N)) : res scb :=
  match m with
  | [] => Ok (mkscb (sb_pairs b ++ [[]]) (sb_seqs b ++ [mkcv 0 0 0 []]))
  | _ =>
      let n := lenN m in
      let max_count := fold_left (fun x v => if x <? fst v then fst v else x) m 0 in
      c <- cvb_new n (ceil_log2 (add64 max_count 1)) ;;
      c <- foldM cvb_push_back (map fst sorted) c ;;
      let ranked := combine (map fst sorted) (range n) in
      Ok (mkscb (sb_pairs b ++ [sort_fst ranked]) (sb_seqs b ++ [cv_of_builder c]))
  end.
(** the clients' loops: for each order eat all values, then build_sequence
    (trie_count_lm.hpp 29-42, mph_count_lm.hpp 21-39) *)
Definition sc_add (b : scb) (vs : list N) (sorted : list (N * N)) : res scb :=
  sc_build_sequence b (fold_left eat_value vs []) sorted.

(** every order in turn; [sorts]: the sorted vectors, one per order *)
Fixpoint sc_add_all (b : scb) (vss : list (list N)) (sorts : list (list (N * N))) : res scb :=
  match vss, sorts with
  | vs :: vss, s :: sorts => b <- sc_add b vs s ;; sc_add_all b vss sorts
  | _, _ => Ok b
  end.
(** rank, lines 257-266 *)
Definition sc_rank (b : scb) (order_m1 value : N) : res N :=
  pairs <- rd (sb_pairs b) order_m1 ;;
  r <- binary_search pairs (lenN pairs) value ;;
  match r with Some r => Ok r | None => Throw end.
(** builder::size, lines 268-270 *)
Definition sc_size (b : scb) (order_m1 : N) : res N := c <- rd (sb_seqs b) order_m1 ;; Ok (c_size c).
(** sequence_collection::access, lines 289-292 *)
Definition sc_access (seqs : list cv) (order_m1 i : N) : res N := c <- rd seqs order_m1 ;; cv_get c i.
