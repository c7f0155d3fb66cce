(** * Model of src/lookup_perf_test.cpp

    The command line is given parsed (external/cmd_line_parser is not in /repo), the query file as the lines
    emphf::file_lines yields (external/emphf is not in /repo: the lines without their newlines).  The clock, the printed
    times and the allocation of memory are left out; what is kept of the counts looked up, which the program throws away
    (essentials::do_not_optimize_away), is the list of the answers of each run. *)
From Coq Require Import String Floats.SpecFloat.
From Verif Require Import Prelude M_Word M_Text M_Pool M_Trie M_TriePef M_MphCount M_Save M_SavePef M_ArpaFile M_GramFile M_Header M_Programs M_Stats.

(** strings_pool and the offsets, lines 15-27; strings_pool::append and bytes, pools.hpp 18-28 *)
Definition perf_append (s : list N * list N) (l : list N) : res (list N * list N) :=
  br <- split_upon_check_end l c_tab ;;
  bs <- bytes_at (c_str l) br ;;
  Ok (fst s ++ bs, snd s ++ [lenN (fst s ++ bs)]).
Definition perf_load (lines : list (list N)) : res (list N * list N) := foldM perf_append lines ([], [0]).
(** one run, lines 50-54: the queries i, i + 1, ... ([n] are left); strings_pool::get_bytes, pools.hpp 30-33 *)
Fixpoint perf_run {S} (ask : S -> list N -> byte_range -> res (N * S)) (data offsets : list N) (i : N) (n : nat) (s : S) : res (list N * S) :=
  match n with
  | O => Ok ([], s)
  | Datatypes.S n =>
      b <- rd offsets i ;; e <- rd offsets (i + 1) ;;
      ' (c, s) <- ask s data (b, e) ;;
      ' (cs, s) <- perf_run ask data offsets (i + 1) n s ;; Ok (c :: cs, s)
  end.
(** all runs, lines 49-55 *)
Fixpoint perf_runs {S} (ask : S -> list N -> byte_range -> res (N * S)) (data offsets : list N) (runs : nat) (s : S) : res (list (list N)) :=
  match runs with
  | O => Ok []
  | Datatypes.S runs =>
      ' (cs, s) <- perf_run ask data offsets 0 (length offsets - 1) s ;;
      rest <- perf_runs ask data offsets runs s ;; Ok (cs :: rest)
  end.
(** trie_count_lm::size, trie_count_lm.hpp 285-291 *)
Definition parrays_size (l : list parr) : N := fold_left (fun s a => add64 s (p_size a)) l 0.

(** what the program prints and the answers of each run *)
Inductive perf := Measured (bytes ngrams : N) (answers : list (list N)) | No_lookup (ty : string) | Exit1.
(** query_times.reserve(runs - 1), line 45: more than max_size() doubles throw *)
Definition reserve_times (runs : N) : res unit := if 2 ^ 60 - 1 <? sub64 runs 1 then Throw else Ok tt.
(** main, lines 65-104, with perf_test, lines 11-63 *)
Definition lookup_perf_test (x : ext) (tenv : penv) (henv : menv) (st : statics) (file : list N) (lines : list (list N)) (runs : N) : res perf :=
  if runs =? 0 then Ok Exit1 else
  header <- file_header file ;;
  let ty := bh_parse header in
  match dispatch hash_count_types ty with
  | Some hb =>
      ' (data, offsets) <- perf_load lines ;;
      ' (m, bytes) <- load_file (load_mcl x hb) file ;;
      _ <- reserve_times runs ;;
      rs <- perf_runs (fun _ buf r => c <- mc_lookup (hash_instance henv hb) m buf r ;; Ok (c, tt)) data offsets (N.to_nat runs) tt ;;
      Ok (Measured bytes (tables_size (mc_tables m)) rs)
  | None =>
      match dispatch trie_count_types ty with
      | Some inst =>
          ' (data, offsets) <- perf_load lines ;;
          ' (t, bytes) <- load_file (load_ptrie x (instance tenv inst)) file ;;
          _ <- reserve_times runs ;;
          rs <- perf_runs (fun '(st, t) buf r => ' (c, st, t) <- ptrie_lookup (instance tenv inst) t st buf r ;; Ok (c, (st, t))) data offsets (N.to_nat runs) (st, t) ;;
          Ok (Measured bytes (parrays_size (pt_arrays t)) rs)
      | None => Ok (No_lookup ty)
      end
  end.
