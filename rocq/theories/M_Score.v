(** * Model of the scoring state: circular_buffer.hpp, state.hpp, and the body shared by
    the two score functions (score.hpp 8-99, mph_prob_lm.hpp 186-252).

    [float] values are [spec_float]s of Coq's standard library (IEEE 754 binary32:
    precision 24, emax 128, round to nearest even; NaN payloads are not distinguished). *)
From Coq Require Import Floats.SpecFloat.
From Verif Require Import Prelude M_Word.

Notation F := spec_float (only parsing).
(** float addition *)
Definition fadd (x y : F) : F := SFadd 24%Z 128%Z x y.
(** 0.0 and 1.0 *)
Definition fzero : F := S754_zero false.
Definition fone : F := S754_finite false 8388608 (-23).
(** [if (x)]: x != 0.0 *)
Definition ftrue (x : F) : bool := match x with S754_zero _ => false | _ => true end.

(** ** circular_buffer (circular_buffer.hpp 5-66) *)
Section WORDS.
Context {W : Type}.
Record cbuf := mkcbuf { cb_capacity : N; cb_begin : N; cb_end : N; cb_data : list W }.
(** constructor, 7-10: [resize] value-initialises *)
Definition cb_new (w0 : W) (capacity : N) : cbuf := mkcbuf capacity 0 0 (repN w0 capacity).
(** init, 12-15 *)
Definition cb_init (c : cbuf) : cbuf := mkcbuf (cb_capacity c) 0 0 (cb_data c).
(** fall_back, 60-64 *)
Definition cb_fall_back (c : cbuf) (x : N) : N := if x =? cb_capacity c then 0 else x.
(** push_back, 17-27 *)
Definition cb_push (c : cbuf) (x : W) : res cbuf :=
  d <- wr (cb_data c) (cb_end c) x ;;
  let e := cb_fall_back c (add64 (cb_end c) 1) in
  let b := if e =? cb_begin c then cb_fall_back c (add64 (cb_begin c) 1) else cb_begin c in
  Ok (mkcbuf (cb_capacity c) b e d).
(** reverse_iterator: operator++ 40-45 *)
Definition ri_next (c : cbuf) (pos : N) : N :=
  sub64 (if pos =? 0 then cb_capacity c else pos) 1.
(** its constructor, 30-35, and rbegin, 52-54 *)
Definition cb_rbegin (c : cbuf) : N := ri_next c (cb_end c).
(** operator*, 37-39 *)
Definition ri_deref (c : cbuf) (pos : N) : res W := rd (cb_data c) pos.

(** ** prob_model_state (state.hpp 12-61); max_order = 8 (util.hpp 67).
    An array element is [None] until something has been stored in it. *)
Record pstate := mkpst { ps_length : N; ps_words : cbuf; ps_oovs : N; ps_pos : N;
                         ps_curr : list (option F); ps_prev : list (option F) }.
(** [std::fill(a, a + n, v)] *)
Definition fill {A} (a : list A) (n : N) (v : A) : res (list A) :=
  foldM (fun a i => wr a i v) (range n) a.
(** constructor, 14-20 *)
Definition ps_new (w0 : W) (max_context_length : N) : res pstate :=
  let a := repN None 8 in
  c <- fill a (max_context_length - 1) (Some fone) ;;
  p <- fill a (max_context_length - 1) (Some fone) ;;
  Ok (mkpst 0 (cb_new w0 max_context_length) 0 0 c p).
(** advance, 22-24 *)
Definition ps_advance (s : pstate) : pstate :=
  mkpst (ps_length s) (ps_words s) (ps_oovs s) (add64 (ps_pos s) 1) (ps_curr s) (ps_prev s).
(** finalize, 26-30 *)
Definition ps_finalize (s : pstate) : pstate :=
  mkpst (ps_length s) (ps_words s) (ps_oovs s) 0 (ps_prev s) (ps_curr s).
(** add_word, 32-34 *)
Definition ps_add_word (s : pstate) (w : W) : res pstate :=
  c <- cb_push (ps_words s) w ;;
  Ok (mkpst (ps_length s) c (ps_oovs s) (ps_pos s) (ps_curr s) (ps_prev s)).
(** add_backoff, 36-38 *)
Definition ps_add_backoff (s : pstate) (b : F) : res pstate :=
  c <- wr (ps_curr s) (ps_pos s) (Some b) ;;
  Ok (mkpst (ps_length s) (ps_words s) (ps_oovs s) (ps_pos s) c (ps_prev s)).
(** backoff, 40-42; reading an element never stored is undefined *)
Definition ps_backoff (s : pstate) (i : N) : res F :=
  x <- rd (ps_prev s) i ;; match x with Some b => Ok b | None => UB end.
(** init, 44-50 *)
Definition ps_init (s : pstate) : res pstate :=
  p <- fill (ps_prev s) (ps_length s) (Some fzero) ;;
  Ok (mkpst 0 (cb_init (ps_words s)) 0 0 (ps_curr s) p).

(** ** the body of score

    [found]: the entry of the word among the unigrams, with the loop's initial extra
    variables [R] (range and ids for the trie, nothing for the hash model).
    [probe k w r]: one lookup, of the gram made of the k previous words (the oldest of
    them being [w]) and the word; [None] = break.  It answers the probability, the
    back-off (absent for the highest order) and the next extra variables. *)
Record sl (R : Type) := mksl { sl_m1 : N; sl_it : N; sl_r : R; sl_prob : F; sl_lml : N; sl_st : pstate }.
Arguments mksl {R}. Arguments sl_m1 {R}. Arguments sl_it {R}. Arguments sl_r {R}.
Arguments sl_prob {R}. Arguments sl_lml {R}. Arguments sl_st {R}.

(** one round of the loop of score.hpp 36-78 / mph_prob_lm.hpp 207-238 *)
Definition score_round {R} (probe : N -> W -> R -> res (option (F * option F * R))) (l : sl R) : res (sl R + sl R) :=
  if negb (sl_m1 l <=? ps_length (sl_st l)) then Ok (inr l) else
  let st := ps_advance (sl_st l) in
  w <- ri_deref (ps_words st) (sl_it l) ;;
  x <- probe (sl_m1 l) w (sl_r l) ;;
  match x with
  | None => Ok (inr (mksl (sl_m1 l) (sl_it l) (sl_r l) (sl_prob l) (sl_lml l) st))
  | Some (prob, backoff, r) =>
    ' (st, lml) <- match backoff with
                   | None => Ok (st, sl_lml l)
                   | Some b => st <- ps_add_backoff st b ;;
                               Ok (st, if ftrue b then N.land (sl_m1 l + 1) 255 else sl_lml l)
                   end ;;
    Ok (inl (mksl (add64 (sl_m1 l) 1) (ri_next (ps_words st) (sl_it l)) r prob lml st))
  end.

(** score.hpp 11-98 / mph_prob_lm.hpp 187-251: result, new state, is_OOV set *)
Definition score_with {R} (unk : F) (found : option (F * F * R))
  (probe : N -> W -> R -> res (option (F * option F * R))) (st : pstate) (w : W) : res (F * pstate * bool) :=
  st <- ps_add_word st w ;;
  ' (m1, prob, lml, st, oov) <-
    match found with
    | Some (prob, backoff, r) =>
      st <- ps_add_backoff st backoff ;;
      let lml := if ftrue backoff then 1 else 0 in
      let it := ri_next (ps_words st) (cb_rbegin (ps_words st)) in
      l <- loop (N.to_nat (ps_length st) + 2) (score_round probe) (mksl 1 it r prob lml st) ;;
      Ok (sl_m1 l, sl_prob l, sl_lml l, sl_st l, false)
    | None =>
      let st := mkpst (ps_length st) (ps_words st) (add64 (ps_oovs st) 1) (ps_pos st) (ps_curr st) (ps_prev st) in
      st <- ps_add_backoff st fzero ;;
      Ok (1, unk, 0, st, true)
    end ;;
  prob <- foldM (fun p i => b <- ps_backoff st i ;; Ok (fadd p b))
                (seqN (m1 - 1) (N.to_nat (ps_length st - (m1 - 1)))) prob ;;
  let st := mkpst lml (ps_words st) (ps_oovs st) (ps_pos st) (ps_curr st) (ps_prev st) in
  Ok (prob, ps_finalize st, oov).
End WORDS.
Arguments cbuf : clear implicits.
Arguments pstate : clear implicits.
Arguments sl : clear implicits.
Arguments mksl {W R}. Arguments sl_m1 {W R}. Arguments sl_it {W R}. Arguments sl_r {W R}.
Arguments sl_prob {W R}. Arguments sl_lml {W R}. Arguments sl_st {W R}.

(** score_round and score_with (score.hpp 11-98) once more, with something that each probe changes:
    used for the tries whose sequences have a state of their own (M_TrieProbPef) *)
Definition score_round_s {W R S} (probe : N -> W -> R -> S -> res (option (F * option F * R) * S)) (ls : sl W R * S) : res (sl W R * S + sl W R * S) :=
  let '(l, s) := ls in
  if negb (sl_m1 l <=? ps_length (sl_st l)) then Ok (inr (l, s)) else
  let st := ps_advance (sl_st l) in
  w <- ri_deref (ps_words st) (sl_it l) ;;
  ' (x, s) <- probe (sl_m1 l) w (sl_r l) s ;;
  match x with
  | None => Ok (inr (mksl (sl_m1 l) (sl_it l) (sl_r l) (sl_prob l) (sl_lml l) st, s))
  | Some (prob, backoff, r) =>
    ' (st, lml) <- match backoff with
                   | None => Ok (st, sl_lml l)
                   | Some b => st <- ps_add_backoff st b ;;
                               Ok (st, if ftrue b then N.land (sl_m1 l + 1) 255 else sl_lml l)
                   end ;;
    Ok (inl (mksl (add64 (sl_m1 l) 1) (ri_next (ps_words st) (sl_it l)) r prob lml st, s))
  end.
Definition score_with_s {W R S} (unk : F) (found : option (F * F * R))
  (probe : N -> W -> R -> S -> res (option (F * option F * R) * S)) (st : pstate W) (w : W) (s : S) : res (F * pstate W * bool * S) :=
  st <- ps_add_word st w ;;
  ' (m1, prob, lml, st, oov, s) <-
    match found with
    | Some (prob, backoff, r) =>
      st <- ps_add_backoff st backoff ;;
      let lml := if ftrue backoff then 1 else 0 in
      let it := ri_next (ps_words st) (cb_rbegin (ps_words st)) in
      ' (l, s) <- loop (N.to_nat (ps_length st) + 2) (score_round_s probe) (mksl 1 it r prob lml st, s) ;;
      Ok (sl_m1 l, sl_prob l, sl_lml l, sl_st l, false, s)
    | None =>
      let st := mkpst (ps_length st) (ps_words st) (add64 (ps_oovs st) 1) (ps_pos st) (ps_curr st) (ps_prev st) in
      st <- ps_add_backoff st fzero ;;
      Ok (1, unk, 0, st, true, s)
    end ;;
  prob <- foldM (fun p i => b <- ps_backoff st i ;; Ok (fadd p b))
                (seqN (m1 - 1) (N.to_nat (ps_length st - (m1 - 1)))) prob ;;
  let st := mkpst lml (ps_words st) (ps_oovs st) (ps_pos st) (ps_curr st) (ps_prev st) in
  Ok (prob, ps_finalize st, oov, s).

