(** * The programs for counts: src/build_trie.cpp, src/build_hash.cpp (value type 'count') and test/test_count_model.cpp

    The command line is given parsed (external/cmd_line_parser is not in /repo); a directory is a function
    from the order k to the decompressed bytes of "k-grams.sorted.gz", None when it does not exist
    (util.hpp 370-375 and parsers.hpp 265-268 throw).  What is printed besides the reports of
    test_count_model is left out. *)
From Coq Require Import String Floats.SpecFloat.
From Verif Require Import Prelude M_Word M_Text M_Pool M_Trie M_TriePef M_MphCount M_Save M_SavePef M_ArpaFile M_GramFile M_Header.

Definition dir := N -> option (list N).
(** the lines of the files of the orders 1 .. order *)
Definition dir_lines (d : dir) (order : N) : res (list (list (list N))) :=
  mapM (fun k => match d (k + 1) with Some data => gram_lines data | None => Throw end) (range order).

(** what a run of a builder leaves: the file it wrote, or nothing and an exit code *)
Inductive run := Wrote (name : string) (bytes : list N) | Nothing (code : N).

(** ** the twelve count tries and two hash models: lm_types.hpp 20-79, as (pef grams, mapper, ranks) and hash bits *)
Inductive ranks_t := R_IC | R_PSEF | R_PSPEF.
Definition trie_count_types : list (string * (bool * bool * ranks_t)) :=
  [("ef_trie_IC_ranks_count_lm", (false, false, R_IC)); ("ef_trie_PSEF_ranks_count_lm", (false, false, R_PSEF)); ("ef_trie_PSPEF_ranks_count_lm", (false, false, R_PSPEF));
   ("ef_rtrie_IC_ranks_count_lm", (false, true, R_IC)); ("ef_rtrie_PSEF_ranks_count_lm", (false, true, R_PSEF)); ("ef_rtrie_PSPEF_ranks_count_lm", (false, true, R_PSPEF));
   ("pef_trie_IC_ranks_count_lm", (true, false, R_IC)); ("pef_trie_PSEF_ranks_count_lm", (true, false, R_PSEF)); ("pef_trie_PSPEF_ranks_count_lm", (true, false, R_PSPEF));
   ("pef_rtrie_IC_ranks_count_lm", (true, true, R_IC)); ("pef_rtrie_PSEF_ranks_count_lm", (true, true, R_PSEF)); ("pef_rtrie_PSPEF_ranks_count_lm", (true, true, R_PSPEF))]%string.
Definition hash_count_types : list (string * N) := [("mph32_count_lm", 32); ("mph64_count_lm", 64)]%string.
(** the if / else if chains the macros LOOP_BODY expand to *)
Fixpoint dispatch {A} (types : list (string * A)) (name : string) : option A :=
  match types with
  | [] => None
  | (t, a) :: ts => if String.eqb name t then Some a else dispatch ts name
  end.

(** the instance of the class template: grams, mapper and ranks of [env] are those of the type *)
Definition instance (env : penv) (ty : bool * bool * ranks_t) : penv :=
  let '(pef, map, rk) := ty in
  let t := pe_t env in
  mkpenv (mktenv (te_h t) (te_vorder t) (te_hu t) (te_orders t) (te_sorts t) (match rk with R_PSEF => PSEF | _ => IC end) map (te_ram t))
    pef (match rk with R_PSPEF => true | _ => false end) (pe_gpad env) (pe_rpad env) (pe_swap env).
Definition hash_instance (env : menv) (hb : N) : menv := mkmenv hb (me_h env) (me_orders env) (me_sorts env) (me_ram env).

(** ** build_trie.cpp *)
Record trie_args := mktargs {
  ta_type : string;              (* data_structure_type *)
  ta_order : N;                  (* order, a uint64_t *)
  ta_remap : option N;           (* --remapping, a uint32_t *)
  ta_ranks : option string;      (* --ranks *)
  ta_unk : option N;             (* --u: the bits of the float *)
  ta_out : option string         (* --out *) }.
(** main, lines 53-166, for value_type "count" *)
Definition build_trie_count (x : ext) (env : penv) (a : trie_args) (d : dir) : res run :=
  order <- accepted_order (ta_order a) ;;
  let ds := if String.eqb (ta_type a) "ef_trie" then Some 1 else if String.eqb (ta_type a) "pef_trie" then Some 2 else None in
  match ds with
  | None => Ok (Nothing 1)
  | Some ds =>
      _ <- match ta_unk a with Some u => check_unk_logprob u | None => Ok tt end ;;
      remap <- match ta_remap a with Some r => _ <- check_remapping_order r ;; Ok r | None => Ok 0 end ;;
      let ranks := match ta_ranks a with
                   | Some r => if String.eqb r "IC" then 0 else if String.eqb r "PSEF" then 1 else if String.eqb r "PSPEF" then 2 else 0
                   | None => 0 end in
      header <- bh_get (mkbh (Some ds) (Some 0) (Some remap) None (Some ranks)) ;;
      let ty := bh_parse header in
      let out := match ta_out a with Some o => o | None => String.append ty ".out" end in
      match dispatch trie_count_types ty with
      | Some inst =>
          files <- dir_lines d order ;;
          t <- ptrie_build (instance env inst) files order (u8 remap) ;;
          Ok (Wrote out (save_file header (save_ptrie x (instance env inst)) t))
      | None => Ok (Nothing 0)
      end
  end.

(** ** build_hash.cpp *)
Record hash_args := mkhargs { ha_order : N; ha_bytes : N; ha_unk : option N; ha_out : option string }.
(** main, lines 43-123, for value_type "count" *)
Definition build_hash_count (x : ext) (env : menv) (a : hash_args) (d : dir) : res run :=
  order <- accepted_order (ha_order a) ;;
  if negb (ha_bytes a =? 4) && negb (ha_bytes a =? 8) then Ok (Nothing 1) else
  _ <- match ha_unk a with Some u => check_unk_logprob u | None => Ok tt end ;;
  header <- bh_get (mkbh (Some 0) (Some 0) None (Some (ha_bytes a)) None) ;;
  let ty := bh_parse header in
  let out := match ha_out a with Some o => o | None => String.append ty ".out" end in
  match dispatch hash_count_types ty with
  | Some hb =>
      files <- dir_lines d order ;;
      m <- mc_build (hash_instance env hb) files order ;;
      Ok (Wrote out (save_file header (save_mcl x hb) m))
  | None => Ok (Nothing 0)
  end.

(** ** test_count_model.cpp *)
(** a report: the gram of this order at this line was not found; any other difference aborts (util.hpp 354-362) *)
Inductive report := Missing (order line : N).
(** the body of the loop of lines 20-30; [ask] is model.lookup on the buffer of the current line *)
Fixpoint check_lines {S} (ask : S -> list N -> byte_range -> res (N * S)) (order i : N) (ls : list (list N)) (s : S) : res (list report * S) :=
  match ls with
  | [] => Ok ([], s)
  | l :: ls =>
      ' (br, c) <- parse_count_line l ;;
      ' (count, s) <- ask s (c_str l) br ;;
      if count =? not_found then ' (rs, s) <- check_lines ask order (i + 1) ls s ;; Ok (Missing order i :: rs, s)
      else if count =? c then check_lines ask order (i + 1) ls s else Throw
  end.
(** check_model, lines 10-33, from [order] on; [n] orders are left *)
Fixpoint check_model {S} (ask : S -> list N -> byte_range -> res (N * S)) (d : dir) (order : N) (n : nat) (s : S) : res (list report) :=
  match n with
  | O => Ok []
  | Datatypes.S n =>
      ls <- match d order with Some data => gram_lines data | None => Throw end ;;
      ' (rs, s) <- check_lines ask order 0 ls s ;;
      rs' <- check_model ask d (order + 1) n s ;; Ok (rs ++ rs')
  end.
Inductive checked := Checked (reports : list report) | Unsupported (ty : string).
(** main, lines 35-65; the division by size() in line 57 is of doubles *)
Definition test_count_model (x : ext) (tenv : penv) (henv : menv) (st : statics) (file : list N) (d : dir) : res checked :=
  header <- file_header file ;;
  let ty := bh_parse header in
  match dispatch hash_count_types ty with
  | Some hb =>
      ' (m, _) <- load_file (load_mcl x hb) file ;;
      rs <- check_model (fun _ buf r => c <- mc_lookup (hash_instance henv hb) m buf r ;; Ok (c, tt)) d 1 (N.to_nat (mc_order m)) tt ;;
      Ok (Checked rs)
  | None =>
      match dispatch trie_count_types ty with
      | Some inst =>
          ' (t, _) <- load_file (load_ptrie x (instance tenv inst)) file ;;
          rs <- check_model (fun '(st, t) buf r => ' (c, st, t) <- ptrie_lookup (instance tenv inst) t st buf r ;; Ok (c, (st, t))) d 1 (N.to_nat (pt_order t)) (st, t) ;;
          Ok (Checked rs)
      | None => Ok (Unsupported ty)
      end
  end.
