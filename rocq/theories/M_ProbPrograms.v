(** * The programs for probabilities: src/build_trie.cpp, src/build_hash.cpp (value type 'prob_backoff') and src/score.cpp

    The command line is given parsed (external/cmd_line_parser is not in /repo).  [arpa] is the value of
    the option --arpa: None when it is absent, Some None when the file cannot be opened, Some (Some bytes)
    otherwise.  What is printed besides the report of score is left out. *)
From Coq Require Import String Floats.SpecFloat.
From Verif Require Import Prelude M_Word M_Text M_Pool M_Trie M_Score M_Quant M_MphProb M_TrieProb M_Save M_Save2 M_ArpaFile M_Header M_ScoreCorpus M_TrieProbPef.
From Verif Require Import M_Programs.

(** the probability models of lm_types.hpp 30-38 and 81-92, in the order of TONGRAMS_TRIE_PROB_TYPES and
    TONGRAMS_HASH_PROB_TYPES (lines 119-133): (pef grams, mapper) and hash bits.  TONGRAMS_SCORE_TYPES
    (lines 136-138) is the first list followed by the second. *)
Definition trie_prob_types : list (string * (bool * bool)) :=
  [("ef_trie_prob_lm", (false, false)); ("pef_trie_prob_lm", (true, false)); ("ef_rtrie_prob_lm", (false, true)); ("pef_rtrie_prob_lm", (true, true))]%string.
Definition hash_prob_types : list (string * N) := [("mph32_prob_lm", 32); ("mph64_prob_lm", 64)]%string.

(** the instances of the class templates *)
Definition prob_instance (env : qenv) (ty : bool * bool) : qenv :=
  let t := qe_t env in
  mkqenv (mktpenv (tp_h t) (tp_vorder t) (tp_hu t) (tp_orders t) (snd ty) (tp_sort t) (tp_sd t) (tp_pad t)) (fst ty) (qe_gpad env).
Definition hash_prob_instance (env : penv) (hb : N) : penv := mkpenv hb (pe_h env) (pe_orders env) (pe_sort env) (pe_sd env) (pe_ram env).

Record prob_args := mkprargs {
  ra_type : string;              (* data_structure_type: build_trie only *)
  ra_bytes : N;                  (* hash_key_bytes: build_hash only *)
  ra_order : N;                  (* order, a uint64_t *)
  ra_remap : option N;           (* --remapping, a uint32_t: build_trie only *)
  ra_p : option N;               (* --p, a uint32_t *)
  ra_b : option N;               (* --b, a uint32_t *)
  ra_unk : option N;             (* --u: the bits of the float *)
  ra_out : option string         (* --out *) }.
(** global::default_probs_quantization_bits and default_backoffs_quantization_bits, util.hpp 64-65; the
    constructors of the builders take the numbers of bits as uint8_t (trie_prob_lm.hpp 21-24, mph_prob_lm.hpp 19-21) *)
Definition bits_arg (o : option N) : N := u8 (match o with Some b => b | None => 8 end).
Definition unk_arg (o : option N) : F := match o with Some b => f_of_bits b | None => default_unk end.
(** arpa_parser's constructor, parsers.hpp 95-101: a null name is undefined behaviour, a file that cannot be opened an exception *)
Definition open_arpa (arpa : option (option (list N))) : res (list N) :=
  match arpa with None => UB | Some None => Throw | Some (Some data) => Ok data end.

(** build_trie.cpp 53-181, for value_type "prob_backoff" *)
Definition build_trie_prob (x : ext) (env : qenv) (a : prob_args) (arpa : option (option (list N))) : res run :=
  order <- accepted_order (ra_order a) ;;
  let ds := if String.eqb (ra_type a) "ef_trie" then Some 1 else if String.eqb (ra_type a) "pef_trie" then Some 2 else None in
  match ds with
  | None => Ok (Nothing 1)
  | Some ds =>
      _ <- match ra_unk a with Some u => check_unk_logprob u | None => Ok tt end ;;
      remap <- match ra_remap a with Some r => _ <- check_remapping_order r ;; Ok r | None => Ok 0 end ;;
      header <- bh_get (mkbh (Some ds) (Some 1) (Some remap) None (Some 0)) ;;
      let ty := bh_parse header in
      let out := match ra_out a with Some o => o | None => String.append ty ".out" end in
      match dispatch trie_prob_types ty with
      | Some inst =>
          data <- open_arpa arpa ;;
          m <- qp_build_file (prob_instance env inst) data order (u8 remap) (unk_arg (ra_unk a)) (bits_arg (ra_p a)) (bits_arg (ra_b a)) ;;
          Ok (Wrote out (save_file header (save_qpl x (prob_instance env inst)) m))
      | None => Ok (Nothing 0)
      end
  end.
(** build_hash.cpp 43-141, for value_type "prob_backoff" *)
Definition build_hash_prob (x : ext) (env : penv) (a : prob_args) (arpa : option (option (list N))) : res run :=
  order <- accepted_order (ra_order a) ;;
  if negb (ra_bytes a =? 4) && negb (ra_bytes a =? 8) then Ok (Nothing 1) else
  _ <- match ra_unk a with Some u => check_unk_logprob u | None => Ok tt end ;;
  header <- bh_get (mkbh (Some 0) (Some 1) None (Some (ra_bytes a)) None) ;;
  let ty := bh_parse header in
  let out := match ra_out a with Some o => o | None => String.append ty ".out" end in
  match dispatch hash_prob_types ty with
  | Some hb =>
      data <- open_arpa arpa ;;
      m <- mp_build_file (hash_prob_instance env hb) data order (unk_arg (ra_unk a)) (bits_arg (ra_p a)) (bits_arg (ra_b a)) ;;
      Ok (Wrote out (save_file header (save_mpl x hb) m))
  | None => Ok (Nothing 0)
  end.

(** score.cpp 16-110: the totals and the number of words printed, or the message of lines 103-106 *)
Inductive scored := Totals (t : totals) (words : N) | Not_supported (ty : string).
Definition score_program (x : ext) (tenv : qenv) (henv : penv) (file corpus : list N) : res scored :=
  header <- file_header file ;;
  let ty := bh_parse header in
  match dispatch trie_prob_types ty with
  | Some inst =>
      ' (m, _) <- load_file (load_qpl x (prob_instance tenv inst)) file ;;
      ' (t, n) <- qp_corpus (prob_instance tenv inst) m corpus ;; Ok (Totals t n)
  | None =>
      match dispatch hash_prob_types ty with
      | Some hb =>
          ' (m, _) <- load_file (load_mpl x hb) file ;;
          ' (t, n) <- mp_corpus (hash_prob_instance henv hb) m corpus ;; Ok (Totals t n)
      | None => Ok (Not_supported ty)
      end
  end.
