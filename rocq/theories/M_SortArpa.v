(** * Model of the program sort_arpa (src/sort_arpa.cpp) and of prob_backoff_line_handler (include/utils/parsers.hpp 62-77)

    Files, std::sort and temporary files as in M_Sort, the stream of the ARPA file as in M_ArpaFile.
    The options of the command line, the temporary directory and the messages are not modelled; the
    bytes granted to the two pools are parameters (lines 38-43, 60, 75). *)
From Coq Require Import Floats.SpecFloat.
From Verif Require Import Prelude M_Word M_Bits M_CompactVector M_HashVec M_Mph M_Text M_Pool M_Trie M_Score M_Quant M_MphProb M_TrieProb M_Sort M_ArpaFile.

Record aenv := mkaenv {
  ae_s : senv;                      (* vocabulary and memory, as in M_Sort *)
  ae_sd : list N -> N -> F * N;     (* strtod and conversion to float *)
  ae_fmt : F -> list N              (* std::to_string of a float *) }.

(** prob_backoff_line_handler: parse_line, lines 65-67; format_line, lines 69-76 *)
Definition prob_handler (env : aenv) : handler (F * F) :=
  mkhandler false
    (fun l => r <- parse_arpa_line (ae_sd env) l ;; Ok (r_gram r, (r_prob r, r_backoff r)))
    (fun g v => ae_fmt env (fst v) ++ [c_tab] ++ g ++ (if ftrue (snd v) then [c_tab] ++ ae_fmt env (snd v) else [])).

(** ap.parse_line(pool), parsers.hpp 170-174, on the current line *)
Definition ap_append (env : aenv) (p : pool (F * F)) (a : aps) : res (bool * pool (F * F)) :=
  r <- parse_arpa_line (ae_sd env) (ap_line a) ;;
  Ok (pool_append p (prec_bytes (ap_line a) r) (r_prob r, r_backoff r)).

(** while (ap.read_line()); line 67.  At the end of the file, after a last line without a newline, the line
    stays as it is: running out of fuel (UB) stands for a loop that goes on for ever. *)
Fixpoint skip_lines (fuel : nat) (a : aps) : res aps :=
  match fuel with
  | O => UB
  | S f => let '(more, a) := ap_read_line a in if more then skip_lines f a else Ok a
  end.
(** the loop of lines 66-71 *)
Fixpoint skip_orders (k : nat) (a : aps) : res aps :=
  match k with
  | O => Ok a
  | S k =>
      a <- skip_lines (S (S (length (is_data (ap_is a))))) a ;;
      let '(_, a) := ap_read_line a in
      let '(_, a) := ap_read_line a in
      skip_orders k a
  end.
(** the inner loop, lines 95-107; it goes on for ever (UB) when the file ends before the n-th line *)
Fixpoint fill_arpa (fuel : nat) (env : aenv) (n : N) (p : pool (F * F)) (a : aps) (i : N) : res (pool (F * F) * aps * N) :=
  if i =? sub64 n 1 then Ok (p, a, i)
  else match fuel with
  | O => UB
  | S f =>
      let '(more, a) := ap_read_line a in
      if more then
        ' (ok, p) <- ap_append env p a ;;
        if (ok : bool) then fill_arpa f env n p a (add64 i 1) else Ok (p, a, i)
      else fill_arpa f env n p a i
  end.
(** the outer loop, lines 93-113 (n = 0 is left undefined: i < n - 1 then holds for all practical i) *)
Fixpoint arpa_loop (fuel : nat) (env : aenv) (look : list N -> byte_range -> res N)
    (srt : (@srec (F * F) -> @srec (F * F) -> res bool) -> list (@srec (F * F)) -> list (@srec (F * F)))
    (n : N) (s : sorter) (p : pool (F * F)) (a : aps) (i : N) : res sorter :=
  if i <? sub64 n 1 then
    match fuel with
    | O => UB
    | S f =>
        ' (_, p) <- ap_append env p a ;;
        ' (p, a, i) <- fill_arpa (N.to_nat n + S (S (length (is_data (ap_is a))))) env n p a i ;;
        s <- so_sort (prob_handler env) false look srt s p ;;
        arpa_loop f env look srt n s (pool_clear p) a (add64 i 1)
    end
  else Ok s.
(** main, lines 47-114: the lines of the output file.  [order] is a uint32_t; "return 1" is Throw.  The
    output file is created by lines 86-91 and receives the title first. *)
Definition sort_arpa (env : aenv) (srt : (@srec (F * F) -> @srec (F * F) -> res bool) -> list (@srec (F * F)) -> list (@srec (F * F)))
    (vocab : list (list N)) (order : N) (data : list N) : res (list (list N)) :=
  ' (counts, a) <- ap_read_header (ap_open data) ;;
  if (order =? 0) || (lenN counts <? order) then Throw else
  v <- sort_vocabulary (ae_s env) vocab ;;
  let '(_, a) := ap_read_line a in
  a <- skip_orders (N.to_nat (order - 1)) a ;;
  n <- rd counts (order - 1) ;;
  let look := vlook (se_h (ae_s env)) v in
  s <- arpa_loop (N.to_nat n) env look srt n (mkso n [] [[92] ++ to_string order ++ t_grams]) (pool_new (se_ram (ae_s env))) a 0 ;;
  s <- merge_batches (prob_handler env) false look (length (so_files s)) s ;;
  Ok (so_out s).
