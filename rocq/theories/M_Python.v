(** * Model of the Python bindings (python/tongrams.cpp)

    A Python string is the list of its code points.  CPython hands it over as a NUL-terminated UTF-8
    buffer (format "s" of PyArg_ParseTuple: strings with a NUL or a surrogate raise an exception, which is
    Throw here) and an int as its 64 low bits (format "k").  Files are given by their bytes.  What the
    constructors print is not modelled. *)
From Coq Require Import Floats.SpecFloat ZArith.
From Verif Require Import Prelude M_Word M_Text M_Trie M_Header M_Score M_Quant M_MphProb M_TrieProb M_Save M_Save2.
Local Open Scope N_scope.

(** ** CPython *)
Definition utf8 (c : N) : list N :=
  if c <? 0x80 then [c]
  else if c <? 0x800 then [0xC0 + c / 64; 0x80 + c mod 64]
  else if c <? 0x10000 then [0xE0 + c / 4096; 0x80 + c / 64 mod 64; 0x80 + c mod 64]
  else [0xF0 + c / 262144; 0x80 + c / 4096 mod 64; 0x80 + c / 64 mod 64; 0x80 + c mod 64].
Definition encode (s : list N) : list N := concat (map utf8 s).
Definition surrogate (c : N) : bool := (0xD800 <=? c) && (c <=? 0xDFFF).
Definition arg_s (s : list N) : res (list N) :=
  if forallb (fun c => negb (c =? 0) && negb (surrogate c)) s then Ok (encode s) else Throw.
Definition arg_k (z : Z) : N := Z.to_N (z mod 2 ^ 64).

(** ** the two classes, lines 9-10: ef_trie_IC_ranks_count_lm and ef_trie_prob_lm, both without remapping *)
Definition py_tenv (t : tenv) : tenv := mktenv (te_h t) (te_vorder t) (te_hu t) (te_orders t) (te_sorts t) IC false (te_ram t).
Definition py_tpenv (t : tpenv) : tpenv := mktpenv (tp_h t) (tp_vorder t) (tp_hu t) (tp_orders t) false (tp_sort t) (tp_sd t) (tp_pad t).

(** load_from_binary, lines 31-47: the type named by the header (lines 37-38) is only printed *)
Definition py_load {A} (load : list N -> res (A * list N)) (file : list N) : res A :=
  header <- file_header file ;;
  let _ := bh_parse header in
  ' (model, _) <- load_file load file ;;
  Ok model.
Definition py_count_model (x : ext) (file : list N) : res trie := py_load (load_trie x IC) file.
Definition py_prob_model (x : ext) (file : list N) : res tpl := py_load (load_tpl x) file.

(** PyCountLM_lookup, lines 67-77; stl_string_adaptor, util_types.hpp 63-69, makes a std::string of the buffer *)
Definition py_lookup (env : tenv) (t : trie) (st : statics) (ngram : list N) : res (N * statics) :=
  b <- arg_s ngram ;;
  ' (count, st) <- trie_lookup (py_tenv env) t st (c_str b) (0, lenN b) ;;
  Ok (if count =? not_found then 0 else count, st).

(** the loop of lines 113-120 *)
Fixpoint py_words (fuel : nat) (env : tpenv) (m : tpl) (buf : list N) (it : N * N) (st : pstate N) (sum : F) (words : N) : res (F * N) :=
  if negb (fwd_has_next it) then Ok (sum, words) else
  match fuel with
  | O => UB
  | S f =>
      ' (w, it) <- fwd_next buf it ;;
      ' (x, st, _) <- tp_score (py_tpenv env) m buf st w ;;
      py_words f env m buf it st (fadd sum x) (add64 words 1)
  end.
(** PyProbLM_score_sentence, lines 101-122; [ptr + size] must not be past the end of the buffer *)
Definition py_score_sentence (env : tpenv) (m : tpl) (sentence : list N) (size : Z) : res (F * N) :=
  b <- arg_s sentence ;;
  let buf := c_str b in
  if lenN buf <? arg_k size then UB else
  st <- tp_state m ;;
  st <- ps_init st ;;
  py_words (S (length buf)) env m buf (0, arg_k size) st fzero 0.

(** PyProbLM_score_corpus, lines 79-99: the loop over the words of a line, lines 90-95 *)
Fixpoint py_line (fuel : nat) (env : tpenv) (m : tpl) (buf : list N) (t : tlines) (st : pstate N) (sent : F) : res (tlines * pstate N * F) :=
  if tl_eol t then Ok (t, st, sent) else
  match fuel with
  | O => UB
  | S f =>
      ' (w, t) <- tl_next buf t ;;
      ' (x, st, _) <- tp_score (py_tpenv env) m buf st w ;;
      py_line f env m buf t st (fadd sent x)
  end.
(** the loop over the lines, lines 85-97 *)
Fixpoint py_lines (fuel : nat) (env : tpenv) (m : tpl) (buf : list N) (t : tlines) (st : pstate N) (tot : F) : res (F * N) :=
  if tl_eof buf t then Ok (tot, tl_words t) else
  match fuel with
  | O => UB
  | S f =>
      st <- ps_init st ;;
      ' (t, st, sent) <- py_line (S (length buf)) env m buf (tl_begin_line t) st fzero ;;
      py_lines f env m buf t st (fadd tot sent)
  end.
Definition py_score_corpus (env : tpenv) (m : tpl) (corpus : list N) : res (F * N) :=
  st <- tp_state m ;;
  py_lines (S (length corpus)) env m corpus tl_init st fzero.
