(** * Model of the external sort of count files
    (include/sorters/sorter_common.hpp, include/sorters/sorter.hpp, src/sort_grams.cpp)

    A file is the list of its lines, each ended by '\n'.  std::sort is a
    parameter [srt] (its contract is stated in Props_Sort.v).  Names of temporary files,
    drawn at random by the code, are taken to be fresh: a temporary file is its
    contents. *)
From Verif Require Import Prelude M_Word M_Bits M_CompactVector M_HashVec M_Mph M_Text M_Pool M_Trie.

(** ** sorter_common.hpp *)
(** what the vocabulary depends on besides the file *)
Record senv := mksenv {
  se_h : list N -> triple;   (* hash function of the vocabulary *)
  se_order : list edge;      (* peeling order found by emphf *)
  se_vram : N;               (* bytes granted to the pool of the vocabulary *)
  se_ram : N                 (* bytes granted to the pool of the records *) }.

(** build_vocabulary, lines 10-33, on the lines of the file after the header *)
Definition sort_vocabulary (env : senv) (lines : list (list N)) : res svt :=
  p <- pool_load (pool_new (se_vram env)) lines ;;
  let n := lenN (p_index p) in
  recs <- mapM (pool_record p) (range n) ;;
  c <- cvb_new n (ceil_log2 (add64 n 1)) ;;
  c <- foldM cvb_push_back (range n) c ;;
  svt_build 64 (se_h env) (hash_domain n) (se_order env) (map fst recs) (cv_of_builder c).

(** the iterator of the comparator: forward_byte_range_iterator for the prefix order,
    backward_byte_range_iterator for the suffix order (lines 71-75) *)
Definition it_next (fwd : bool) (buf : list N) (it : N * N) : res (byte_range * (N * N)) :=
  if fwd then fwd_next buf it else bwd_next buf it.
Definition empty_range (r : byte_range) : bool := fst r =? snd r.
(** the loop of lines 43-66; [look] is m_vocab->lookup *)
Fixpoint cmp_loop (k : nat) (fwd : bool) (look : list N -> byte_range -> res N)
    (bx : list N) (ix : N * N) (by_ : list N) (iy : N * N) : res bool :=
  match k with
  | O => Ok false
  | S k =>
      ' (rx, ix) <- it_next fwd bx ix ;;
      ' (ry, iy) <- it_next fwd by_ iy ;;
      if empty_range rx || empty_range ry then Ok false
      else
        e <- equal_bytes bx by_ rx ry ;;
        if e then cmp_loop k fwd look bx ix by_ iy
        else
          id_x <- look bx rx ;;
          if id_x =? not_found then Ok false
          else
            id_y <- look by_ ry ;;
            if id_y =? not_found then Ok false else Ok (id_x <? id_y)
  end.
(** operator(), lines 39-69, on the grams [x] (in the memory [bx]) and [y] (in [by_]);
    the order is a uint32_t.  init() of both iterators keeps the two ends of the range. *)
Definition comparator (fwd : bool) (look : list N -> byte_range -> res N)
    (bx : list N) (x : byte_range) (by_ : list N) (y : byte_range) : res bool :=
  g <- bytes_at bx x ;;
  let order := f32 (lenN (filter (fun c => c =? c_space) g) + 1) in
  cmp_loop (N.to_nat order) fwd look bx x by_ y.

(** ** sorter.hpp *)
Inductive fname := OutFile | TmpFile (content : list (list N)).
(** m_n, m_files and the contents of the output file *)
Record sorter := mkso { so_n : N; so_files : list fname; so_out : list (list N) }.
(** a line handler (parsers.hpp 62-92): value_t == value_type::count, parse_line, format_line.
    [A]: the values of a record. *)
Record handler (A : Type) := mkhandler { h_counts : bool; h_parse : list N -> res (byte_range * A); h_format : list N -> A -> list N }.
Arguments mkhandler {A}. Arguments h_counts {A}. Arguments h_parse {A}. Arguments h_format {A}.
(** count_line_handler, parsers.hpp 79-92 *)
Definition count_handler : handler N := mkhandler true parse_count_line format_count_line.

(** template <typename Comparator, typename LineHandler> struct sorter *)
Section SORTER.
Context {A : Type}.
Variable H : handler A.
Variable fwd : bool.
Variable look : list N -> byte_range -> res N.
(** a record of the index of the pool *)
Definition srec : Type := byte_range * A.

(** flush, lines 72-93: the lines written *)
Definition flush (data : list N) (idx : list srec) : res (list (list N)) :=
  lines <- mapM (fun r : srec => g <- bytes_at data (fst r) ;; Ok (h_format H g (snd r))) idx ;;
  Ok (if h_counts H then to_string (lenN idx) :: lines else lines).
(** sort, lines 23-36, on the index of the pool *)
Definition so_sort (srt : (srec -> srec -> res bool) -> list srec -> list srec) (s : sorter) (p : pool A) : res sorter :=
  match p_index p with
  | [] => Ok s
  | _ =>
      if p_moved p then UB
      else
        let n := lenN (p_index p) in
        let idx := srt (fun x y => comparator fwd look (p_data p) (fst x) (p_data p) (fst y)) (p_index p) in
        c <- flush (p_data p) idx ;;
        if n =? so_n s then Ok (mkso (so_n s) (so_files s ++ [OutFile]) (so_out s ++ c))
        else Ok (mkso (so_n s) (so_files s ++ [TmpFile c]) (so_out s))
  end.

(** lines 108-116: the number of records announced by a file and the lines that follow.
    Simplified: std::stoull also throws when there is no digit or on overflow *)
Definition head_count (c : list (list N)) : res (N * list (list N)) :=
  match c with
  | [] => Ok (0, [])
  | h :: rest => n <- strtoull (c_str h) 0 ;; Ok (n, rest)
  end.
(** m_comparator(parse_line(line1), parse_line(line2)) *)
Definition cmp_lines (l1 l2 : list N) : res bool :=
  ' (r1, _) <- h_parse H l1 ;;
  ' (r2, _) <- h_parse H l2 ;;
  comparator fwd look (c_str l1) r1 (c_str l2) r2.
(** the loop of lines 132-152 followed by the copies of lines 155-165: the current lines
    [l1] and [l2], the unread lines [r1] and [r2] *)
Fixpoint merge_loop (fuel : nat) (l1 : list N) (r1 : list (list N)) (l2 : list N) (r2 : list (list N)) : res (list (list N)) :=
  match fuel with
  | O => UB
  | S f =>
      b <- cmp_lines l1 l2 ;;
      if (b : bool) then
        match r1 with
        | l :: r1 => out <- merge_loop f l r1 l2 r2 ;; Ok (l1 :: out)
        | [] => Ok (l1 :: l2 :: r2)
        end
      else
        match r2 with
        | l :: r2 => out <- merge_loop f l1 r1 l r2 ;; Ok (l2 :: out)
        | [] => Ok (l2 :: l1 :: r1)
        end
  end.
(** merge, lines 95-168, after the heads: the records written *)
Definition merge_bodies (b1 b2 : list (list N)) : res (list (list N)) :=
  match b1, b2 with
  | l1 :: r1, l2 :: r2 => merge_loop (length b1 + length b2) l1 r1 l2 r2
  | [], _ => Ok b2
  | _, [] => Ok b1
  end.
(** merge, lines 95-168: the lines written to the output *)
Definition merge (c1 c2 : list (list N)) : res (list (list N)) :=
  if h_counts H then
    ' (n1, b1) <- head_count c1 ;;
    ' (n2, b2) <- head_count c2 ;;
    let n := add64 n1 n2 in
    if n =? 0 then Throw
    else body <- merge_bodies b1 b2 ;; Ok (to_string n :: body)
  else merge_bodies c1 c2.
(** merge_batches, lines 50-69 (the destructor, lines 19-21).  Merging the output file
    into itself is not defined here (it is never done) *)
Fixpoint merge_batches (fuel : nat) (s : sorter) : res sorter :=
  match so_files s with
  | f1 :: f2 :: rest =>
      match fuel, f1, f2 with
      | S f, TmpFile c1, TmpFile c2 =>
          c <- merge c1 c2 ;;
          match rest with
          | [] => merge_batches f (mkso (so_n s) [OutFile] (so_out s ++ c))
          | _ => merge_batches f (mkso (so_n s) (rest ++ [TmpFile c]) (so_out s))
          end
      | _, _, _ => UB
      end
  | _ => Ok s
  end.
End SORTER.

(** ** src/sort_grams.cpp *)
(** count_records_iterator (parsers.hpp 195-236): the line number, the current line, the
    unread lines; a getline that fails leaves an empty line *)
Record crit := mkcrit { cr_num : N; cr_line : list N; cr_rest : list (list N) }.
Definition cr_begin (lines : list (list N)) : crit :=
  match lines with [] => mkcrit 0 [] [] | l :: r => mkcrit 0 l r end.
Definition cr_next (it : crit) : crit :=
  match cr_rest it with [] => mkcrit (cr_num it + 1) [] [] | l :: r => mkcrit (cr_num it + 1) l r end.
(** gp.append(count_record(l.gram, l.count)) on the current line *)
Definition append_line (p : pool N) (l : list N) : res (bool * pool N) :=
  ' (r, c) <- parse_count_line l ;;
  g <- bytes_at (c_str l) r ;;
  Ok (pool_append p g c).
(** the inner loop, lines 80-88 *)
Fixpoint fill (fuel : nat) (n : N) (p : pool N) (it : crit) (i : N) : res (pool N * crit * N) :=
  if cr_num it =? n then Ok (p, it, i)
  else match fuel with
  | O => UB
  | S f =>
      ' (ok, p) <- append_line p (cr_line it) ;;
      if (ok : bool) then fill f n p (cr_next it) (add64 i 1) else Ok (p, it, i)
  end.
(** the outer loop, lines 76-94 *)
Fixpoint batch_loop (fuel : nat) (fwd : bool) (look : list N -> byte_range -> res N)
    (srt : (@srec N -> @srec N -> res bool) -> list (@srec N) -> list (@srec N))
    (n : N) (s : sorter) (p : pool N) (it : crit) (i : N) : res sorter :=
  if i <? sub64 n 1 then
    match fuel with
    | O => UB
    | S f =>
        ' (_, p) <- append_line p (cr_line it) ;;
        let it := cr_next it in
        ' (p, it, i) <- fill (N.to_nat n) n p it i ;;
        s <- so_sort count_handler fwd look srt s p ;;
        batch_loop f fwd look srt n s (pool_clear p) it (add64 i 1)
    end
  else Ok s.
(** main, lines 60-96: [n] is the number in the header of the input, [lines] the lines after
    it, [out0] what the output file contains beforehand (it is opened in append mode) *)
Definition sort_grams (env : senv) (srt : (@srec N -> @srec N -> res bool) -> list (@srec N) -> list (@srec N))
    (vocab : list (list N)) (n : N) (lines : list (list N)) (out0 : list (list N)) : res (list (list N)) :=
  v <- sort_vocabulary env vocab ;;
  if n =? 0 then Throw
  else
    let look := vlook (se_h env) v in
    s <- batch_loop (N.to_nat n) true look srt n (mkso n [] out0) (pool_new (se_ram env)) (cr_begin lines) 0 ;;
    s <- merge_batches count_handler true look (length (so_files s)) s ;;
    Ok (so_out s).
