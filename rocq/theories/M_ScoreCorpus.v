(** * Model of the program score (src/score.cpp 13-83): scoring a corpus with a probability model

    [score]: the score function of the model (mp_score of M_MphProb, tp_score of M_TrieProb).  The corpus is
    the bytes of the mapped file (text_lines, iterators.hpp 11-64, M_Text).  Loading the model from its file
    is modelled in M_Save.  The two perplexities are computed with pow() of the C library, which is not
    modelled: they are functions of the numbers returned here.  Timing and the text written are not modelled. *)
From Coq Require Import Floats.SpecFloat.
From Verif Require Import Prelude M_Word M_Text M_Score M_Quant M_MphProb M_TrieProb.

(** lines 22-25: the accumulators *)
Record totals := mktot { tt_oovs : N; tt_sentences : N; tt_prob : F; tt_oov_prob : F }.
Definition tot_init : totals := mktot 0 0 fzero fzero.

Section CORPUS.
Variable score : list N -> pstate N -> byte_range -> res (F * pstate N * bool).

(** the loop over the words of a line, lines 41-54: the text position, the state, the probability of the
    sentence and that of the unknown words.  score() only ever sets is_OOV, and line 53 resets it. *)
Fixpoint score_line (fuel : nat) (buf : list N) (t : tlines) (st : pstate N) (sent oovp : F) : res (tlines * pstate N * F * F) :=
  if tl_eol t then Ok (t, st, sent, oovp) else
  match fuel with
  | O => UB
  | S f =>
      ' (w, t) <- tl_next buf t ;;
      ' (x, st, oov) <- score buf st w ;;
      score_line f buf t st (fadd sent x) (if oov then fadd oovp x else oovp)
  end.
(** the loop over the lines, lines 32-63 *)
Fixpoint score_lines (fuel : nat) (buf : list N) (t : tlines) (st : pstate N) (tot : totals) : res (tlines * pstate N * totals) :=
  if tl_eof buf t then Ok (t, st, tot) else
  match fuel with
  | O => UB
  | S f =>
      st <- ps_init st ;;
      ' (t, st, sent, oovp) <- score_line (S (length buf)) buf (tl_begin_line t) st fzero (tt_oov_prob tot) ;;
      score_lines f buf t st (mktot (add64 (tt_oovs tot) (ps_oovs st)) (add64 (tt_sentences tot) 1) (fadd (tt_prob tot) sent) oovp)
  end.
(** lines 20-65: the totals and the number of tokens *)
Definition score_corpus (buf : list N) (st : pstate N) : res (totals * N) :=
  ' (t, _, tot) <- score_lines (S (length buf)) buf tl_init st tot_init ;; Ok (tot, tl_words t).
End CORPUS.

(** for the hash model and for the trie *)
Definition mp_corpus (env : penv) (m : mpl) (buf : list N) : res (totals * N) :=
  st <- mp_state m ;; score_corpus (mp_score env m) buf st.
Definition tp_corpus (env : tpenv) (m : tpl) (buf : list N) : res (totals * N) :=
  st <- tp_state m ;; score_corpus (tp_score env m) buf st.
(** the line "perplexity excluding OOVs" is printed when this is not 0, line 73 *)
Definition known_tokens (tokens : N) (tot : totals) : N := sub64 tokens (tt_oovs tot).
