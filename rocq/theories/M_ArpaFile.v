(** * Model of the reading of an ARPA file: arpa_parser (include/utils/parsers.hpp 94-219), arpa_iterator
    (include/utils/iterators.hpp 65-93), and of the part of the builders of mph_prob_lm and trie_prob_lm
    that reads the file (include/mph_prob_lm.hpp 31-80, include/trie_prob_lm.hpp 35-100).

    [C++ library] std::ifstream, std::getline, tellg, seekg. *)
From Coq Require Import Floats.SpecFloat.
From Verif Require Import Prelude M_Word M_Text M_Pool M_Trie M_Score M_Quant M_MphProb M_TrieProb.

(** an input stream over the bytes of a file: position, eofbit, failbit *)
Record ist := mkist { is_data : list N; is_pos : N; is_eof : bool; is_fail : bool }.
Definition is_good (s : ist) : bool := negb (is_eof s || is_fail s).

(** the bytes before the first newline *)
Fixpoint until_nl (l : list N) : list N :=
  match l with [] => [] | c :: l => if c =? 10 then [] else c :: until_nl l end.

(** std::getline(stream, line) [C++ library]: a stream that is not good gets its failbit set and the
    line is left as it was; reaching the end sets eofbit, and failbit when no byte was extracted *)
Definition getline (s : ist) (line : list N) : ist * list N :=
  if is_good s then
    let rest := skipn (N.to_nat (is_pos s)) (is_data s) in
    let l := until_nl rest in
    if lenN l =? lenN rest then (mkist (is_data s) (is_pos s + lenN l) true (lenN rest =? 0), l)
    else (mkist (is_data s) (is_pos s + lenN l + 1) false false, l)
  else (mkist (is_data s) (is_pos s) (is_eof s) true, line).

(** tellg [C++ library]: -1 (as uint64_t) when the stream is not good *)
Definition tellg (s : ist) : N * ist :=
  if is_good s then (is_pos s, s) else (2 ^ 64 - 1, mkist (is_data s) (is_pos s) (is_eof s) true).

(** seekg(offset, beg) [C++ library]: clears eofbit; does nothing after a failure *)
Definition seekg (s : ist) (off : N) : ist :=
  if is_fail s then mkist (is_data s) (is_pos s) false true
  else if off =? 2 ^ 64 - 1 then mkist (is_data s) (is_pos s) false true
  else mkist (is_data s) off false false.

(** members of arpa_parser, parsers.hpp 207-213; m_cur_line_num (only used in messages), m_cur_record
    and m_order (never read) are left out *)
Record aps := mkaps { ap_is : ist; ap_line : list N; ap_offs : list N; ap_max : N }.

(** constructor, lines 99-106, on a file that exists *)
Definition ap_open (data : list N) : aps := mkaps (mkist data 0 false false) [] [] 0.

(** read_line, lines 156-164 *)
Definition ap_read_line (a : aps) : bool * aps :=
  let '(s, l) := getline (ap_is a) (ap_line a) in
  (match l with [] => false | _ => true end, mkaps s l (ap_offs a) (ap_max a)).

(** skip_blanklines, lines 176-180; running out of fuel (the loop goes on for ever) is UB *)
Fixpoint ap_skip_fuel (fuel : nat) (a : aps) : res aps :=
  match ap_line a with
  | [] => match fuel with O => UB | S f => ap_skip_fuel f (snd (ap_read_line a)) end
  | _ => Ok a
  end.
Definition ap_skip (a : aps) : res aps := ap_skip_fuel (S (S (length (is_data (ap_is a))))) a.

(** expect, lines 195-203; abort() is Throw *)
Definition ap_expect (a : aps) (s : list N) : res unit :=
  if list_eq_dec N.eq_dec (ap_line a) s then Ok tt else Throw.

(** "\data\" *)
Definition t_data : list N := [92; 100; 97; 116; 97; 92].
(** "ngram " *)
Definition t_ngram : list N := [110; 103; 114; 97; 109; 32].
(** "\end\" *)
Definition t_end : list N := [92; 101; 110; 100; 92].
(** "-grams:" *)
Definition t_grams : list N := [45; 103; 114; 97; 109; 115; 58].

(** the loop of lines 114-122; [i] is a uint32_t *)
Fixpoint ap_counts (fuel : nat) (a : aps) (i : N) (counts : list N) : res (list N * aps) :=
  match fuel with
  | O => UB
  | S f =>
      br <- split_upon (ap_line a) 61 ;;
      count <- strtoull (c_str (ap_line a)) (snd br + 1) ;;
      _ <- ap_expect a (t_ngram ++ to_string i ++ [61] ++ to_string count) ;;
      let counts := counts ++ [count] in
      let '(more, a) := ap_read_line a in
      if more then ap_counts f a ((i + 1) mod 2 ^ 32) counts else Ok (counts, a)
  end.
(** read_header, lines 108-128; m_max_order is a uint8_t *)
Definition ap_read_header (a : aps) : res (list N * aps) :=
  a <- ap_skip a ;;
  _ <- ap_expect a t_data ;;
  let '(_, a) := ap_read_line a in
  ' (counts, a) <- ap_counts (S (S (length (is_data (ap_is a))))) a 1 [] ;;
  a <- ap_skip (mkaps (ap_is a) (ap_line a) (ap_offs a) (lenN counts mod 256)) ;;
  Ok (counts, a).

(** read_values, lines 130-154 *)
Definition ap_read_values (sd : list N -> N -> F * N) (a : aps) (order n : N) : res (list F * list F * aps) :=
  a <- ap_skip a ;;
  _ <- ap_expect a ([92] ++ to_string order ++ t_grams) ;;
  let '(off, s) := tellg (ap_is a) in
  let a := mkaps s (ap_line a) (ap_offs a ++ [off]) (ap_max a) in
  ' (probs, backoffs, a) <- foldM (fun st _ =>
      let '(probs, backoffs, a) := st in
      let '(_, a) := ap_read_line a in
      r <- parse_arpa_line sd (ap_line a) ;;
      Ok (probs ++ [r_prob r], if (order =? 1) || ftrue (r_backoff r) then backoffs ++ [r_backoff r] else backoffs, a))
      (repeat tt (N.to_nat n)) ([], [], a) ;;
  Ok (probs, backoffs, snd (ap_read_line a)).

(** parse_eof, lines 182-185 *)
Definition ap_parse_eof (a : aps) : res aps :=
  let '(_, a) := ap_read_line a in _ <- ap_expect a t_end ;; Ok a.

(** the constructor of arpa_iterator, iterators.hpp 66-77: num_grams and the parser.
    The access to counts precedes the check of the order. *)
Definition ait_open (data : list N) (order offset : N) : res (N * aps) :=
  ' (counts, a) <- ap_read_header (ap_open data) ;;
  let a := mkaps (seekg (ap_is a) offset) (ap_line a) (ap_offs a) (ap_max a) in
  n <- rd counts (sub64 order 1) ;;
  if ap_max a <? order then Throw else Ok (n, a).
(** next, iterators.hpp 83-86: the line that is parsed *)
Definition ait_line (a : aps) : list N * aps := let '(_, a) := ap_read_line a in (ap_line a, a).
(** the lines parsed by [k] calls of next *)
Fixpoint ait_lines (k : nat) (a : aps) : list (list N) * aps :=
  match k with
  | O => ([], a)
  | S k => let '(l, a) := ait_line a in let '(ls, a) := ait_lines k a in (l :: ls, a)
  end.
(** the section read by an iterator: num_grams calls of next *)
Definition ait_section (data : list N) (order offset : N) : res (list (list N)) :=
  ' (n, a) <- ait_open data order offset ;; Ok (fst (ait_lines (N.to_nat n) a)).

(** the loop over the orders, mph_prob_lm.hpp 41-64 (trie_prob_lm.hpp 45-66 is the same) *)
Definition ap_values (env : penv) (counts : list N) (order pq bq : N) (a : aps) : res (aps * (qsc * qsc)) :=
  foldM (fun (s : aps * (qsc * qsc)) ord =>
           let '(a, bs) := s in
           n <- rd counts (ord - 1) ;;
           ' (probs, backoffs, a) <- ap_read_values (pe_sd env) a ord n ;;
           if ord =? 1 then Ok (a, bs) else
           pb <- build_probs (fst bs) (pe_sort env probs) pq ;;
           bb <- (if ord =? order then Ok (snd bs) else build_backoffs (snd bs) (pe_sort env backoffs) bq) ;;
           Ok (a, (pb, bb))) (seqN 1 (N.to_nat order)) (a, (qsc_empty, qsc_empty)).
(** the header, the values, the end of the file, then the sections through their iterators.
    Simplification: the sections are read one after the other here; the code reads the lines of a
    section as it builds its table (each iterator has a stream of its own, so the lines are the same). *)
Definition ap_load (env : penv) (data : list N) (order pq bq : N) : res (qsc * qsc * list (list (list N))) :=
  ' (counts, a) <- ap_read_header (ap_open data) ;;
  if lenN counts <? order then Throw else
  ' (a, bs) <- ap_values env counts order pq bq a ;;
  a <- ap_parse_eof a ;;
  secs <- mapM (fun ord => off <- rd (ap_offs a) (ord - 1) ;; ait_section data ord off) (seqN 1 (N.to_nat order)) ;;
  Ok (bs, secs).

(** the builder of mph_prob_lm from the file, mph_prob_lm.hpp 19-128 *)
Definition mp_build_file (env : penv) (data : list N) (order : N) (unk : F) (pq bq : N) : res mpl :=
  _ <- check_order order ;;
  ' (pb, bb, secs) <- ap_load env data order pq bq ;;
  uni <- rd secs 0 ;;
  unk <- set_unk env uni unk ;;
  t0 <- mp_vocabulary env uni ;;
  ts <- mapM (mp_table env pb bb secs order pq bq) (seqN 1 (N.to_nat (order - 1))) ;;
  Ok (mkmpl order unk pb bb (t0 :: ts)).

(** the builder of trie_prob_lm from the file, trie_prob_lm.hpp 21-118 *)
Definition tp_build_file (env : tpenv) (data : list N) (order remap : N) (unk : F) (pq bq : N) : res tpl :=
  _ <- check_order order ;;
  _ <- check_remapping_order remap ;;
  ' (pb, bb, secs) <- ap_load (tp_penv env) data order pq bq ;;
  uni <- rd secs 0 ;;
  unk <- set_unk (tp_penv env) uni unk ;;
  v <- tp_vocabulary env uni ;;
  arrays <- foldM (tp_build_order env v pb bb remap secs order pq bq) (seqN 2 (N.to_nat (order - 1)))
                  (map (fun l => mkparr (sarr_new (lenN l)) None) secs) ;;
  Ok (mktpl order remap unk pb bb v arrays).
