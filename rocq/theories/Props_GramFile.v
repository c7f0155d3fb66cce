(** * Property C44: reading a count file *)
From Coq Require Import Floats.SpecFloat.
From Verif Require Import Prelude BitFacts M_Word Spec M_Text P_Text P_Text2 M_ArpaFile Spec_ArpaFile P_ArpaFile M_GramFile Spec_GramFile P_GramFile.

Definition no_newline (l : list N) : Prop := ~ In 10 l.

(** The lines announced by the header are read, whatever follows them. *)
Theorem C44_lines : forall lines rest, lines <> [] -> lenN lines < 2 ^ 64 -> Forall no_newline lines ->
  gram_lines (count_file (lenN lines) lines ++ rest) = Ok lines.
Proof.
  intros lines rest NE L F. unfold count_file. rewrite text_of_cons.
  destruct (gp_open_ok (lenN lines) (text_of lines ++ rest)) as (s & E & H). { destruct lines; [congruence|]. rewrite lenN_cons in *. lia. }
  unfold gram_lines. rewrite E. cbn [bind]. cbv beta iota. destruct (lines_ok lines s [] rest F H 0) as (s' & E' & _). replace (N.to_nat (lenN lines)) with (length lines + 0)%nat by (unfold lenN; lia).
  rewrite E'. cbn [gp_lines]. rewrite app_nil_r. reflexivity.
Qed.
Print Assumptions C44_lines.

(** The newline of the last line may be missing. *)
Theorem C44_no_last_newline : forall lines l, l <> [] -> lenN lines + 1 < 2 ^ 64 -> Forall no_newline (lines ++ [l]) ->
  gram_lines (count_file_cut (lenN lines + 1) (lines ++ [l])) = Ok (lines ++ [l]).
Proof.
  intros lines l NE L F. apply Forall_app in F. destruct F as [F FL]. apply Forall_inv in FL.
  assert (EC : count_file_cut (lenN lines + 1) (lines ++ [l]) = decimal (lenN lines + 1) ++ 10 :: text_of lines ++ l).
  { unfold count_file_cut, count_file. replace (text_of (decimal (lenN lines + 1) :: lines ++ [l])) with ((decimal (lenN lines + 1) ++ 10 :: text_of lines ++ l) ++ [10]); [apply removelast_last|].
    change (decimal (lenN lines + 1) :: lines ++ [l]) with ((decimal (lenN lines + 1) :: lines) ++ [l]). rewrite text_of_app. rewrite <- (app_nil_r (text_of (_ :: lines))), text_of_cons, app_nil_r. unfold text_of at 3. cbn [map concat]. rewrite app_nil_r.
    rewrite <- !app_assoc. cbn [app]. rewrite <- !app_assoc. reflexivity. }
  rewrite EC. destruct (gp_open_ok (lenN lines + 1) (text_of lines ++ l) ltac:(lia)) as (s & E & H). unfold gram_lines. rewrite E. cbn [bind]. cbv beta iota.
  destruct (lines_ok lines s [] l F H 1) as (s' & E' & H'). replace (N.to_nat (lenN lines + 1)) with (length lines + 1)%nat by (unfold lenN; lia). rewrite E'. cbn [gp_lines].
  destruct (getline_last s' l (last lines []) H' FL) as (s2 & -> & _). reflexivity.
Qed.
Print Assumptions C44_no_last_newline.

(** A file with fewer lines than announced is not noticed: the missing lines are read as empty lines,
    or, when the last newline is missing too, as copies of the last line. *)
Theorem C44_short_file : forall lines l j, Forall no_newline (lines ++ [l]) -> lenN lines + 1 + N.of_nat j < 2 ^ 64 ->
  gram_lines (count_file (lenN lines + 1 + N.of_nat j) (lines ++ [l])) = Ok ((lines ++ [l]) ++ repeat [] j) /\
  (l <> [] -> gram_lines (count_file_cut (lenN lines + 1 + N.of_nat j) (lines ++ [l])) = Ok ((lines ++ [l]) ++ repeat l j)).
Proof.
  intros lines l j F L. set (n := lenN lines + 1 + N.of_nat j) in *. split; [|intros NE].
  - unfold count_file. rewrite <- (app_nil_r (text_of _)), text_of_cons. destruct (gp_open_ok n (text_of (lines ++ [l]) ++ []) ltac:(lia)) as (s & E & H). unfold gram_lines. rewrite E. cbn [bind]. cbv beta iota.
    destruct (lines_ok (lines ++ [l]) s [] [] F H j) as (s' & E' & H'). replace (N.to_nat n) with (length (lines ++ [l]) + j)%nat by (rewrite app_length; cbn; unfold n, lenN; lia). rewrite E'. do 2 f_equal.
    destruct j as [|j]; [reflexivity|]. cbn [gp_lines repeat]. destruct (getline_last s' [] (last (lines ++ [l]) []) H' (fun x => x)) as (s2 & -> & B). f_equal. apply lines_bad. exact B.
  - apply Forall_app in F. destruct F as [F FL]. apply Forall_inv in FL.
    assert (EC : count_file_cut n (lines ++ [l]) = decimal n ++ 10 :: text_of lines ++ l).
    { unfold count_file_cut, count_file. replace (text_of (decimal n :: lines ++ [l])) with ((decimal n ++ 10 :: text_of lines ++ l) ++ [10]); [apply removelast_last|].
      change (decimal n :: lines ++ [l]) with ((decimal n :: lines) ++ [l]). rewrite text_of_app. rewrite <- (app_nil_r (text_of (_ :: lines))), text_of_cons, app_nil_r. unfold text_of at 3. cbn [map concat]. rewrite app_nil_r.
      rewrite <- !app_assoc. cbn [app]. rewrite <- !app_assoc. reflexivity. }
    rewrite EC. destruct (gp_open_ok n (text_of lines ++ l) ltac:(lia)) as (s & E & H). unfold gram_lines. rewrite E. cbn [bind]. cbv beta iota.
    destruct (lines_ok lines s [] l F H (S j)) as (s' & E' & H'). replace (N.to_nat n) with (length lines + S j)%nat by (unfold n, lenN; lia). rewrite E'. cbn [gp_lines].
    destruct (getline_last s' l (last lines []) H' FL) as (s2 & -> & B). rewrite (lines_bad j s2 l B). rewrite <- app_assoc. reflexivity.
Qed.
Print Assumptions C44_short_file.

(** Files without a first line, announcing no line, or whose first line does not start with a digit, a sign or a
    blank are refused. *)
Theorem C44_refused :
  gram_lines [] = Throw /\
  (forall rest, gram_lines (10 :: rest) = Throw) /\
  (forall lines, gram_lines (count_file 0 lines) = Throw) /\
  (forall c rest, is_digit c = false -> is_space c = false -> c <> 43 -> c <> 45 -> gram_lines (c :: rest) = Throw).
Proof.
  split; [reflexivity|]. split; [|split].
  - intros rest. unfold gram_lines, gp_open. destruct (getline_nl _ [] rest [] (left_start (10 :: rest)) (fun x => x)) as (s & -> & _). reflexivity.
  - intros lines. unfold gram_lines, gp_open, count_file. rewrite <- (app_nil_r (text_of _)), text_of_cons. change (decimal 0) with [48].
    destruct (getline_nl _ [48] (text_of lines ++ []) [] (left_start _)) as (s & -> & _); [cbn; intuition discriminate|]. reflexivity.
  - intros c rest H1 H2 H3 H4. unfold gram_lines, gp_open. assert (N10 : c <> 10) by (intros ->; discriminate).
    assert (G : exists s', getline (mkist (c :: rest) 0 false false) [] = (s', c :: until_nl rest)).
    { unfold getline. cbn [is_good is_eof is_fail orb negb is_pos is_data]. change (skipn (N.to_nat 0) (c :: rest)) with (c :: rest). cbn [until_nl]. destruct (N.eqb_spec c 10); [contradiction|].
      destruct (lenN (c :: until_nl rest) =? lenN (c :: rest)); eexists; reflexivity. }
    destruct G as (s' & ->). unfold stoull, c_str. cbv zeta.
    assert (SK : skip_space (S (length ((c :: until_nl rest) ++ [0]))) ((c :: until_nl rest) ++ [0]) 0 = Ok 0).
    { cbn [skip_space]. change (rd ((c :: until_nl rest) ++ [0]) 0) with (Ok c). cbn [bind]. rewrite H2. reflexivity. }
    rewrite SK. cbn [bind]. change (rd ((c :: until_nl rest) ++ [0]) 0) with (Ok c). cbn [bind].
    destruct (N.eqb_spec c 45); [contradiction|]. destruct (N.eqb_spec c 43); [contradiction|]. cbn [orb]. change (rd ((c :: until_nl rest) ++ [0]) 0) with (Ok c). cbn [bind]. rewrite H1. reflexivity.
Qed.
Print Assumptions C44_refused.

(** A file whose first line is a number of 2^64 or more is refused: the number is not silently reduced. *)
Theorem C44_overflow : forall ds rest, Forall (fun c => is_digit c = true) ds -> 2 ^ 64 <= dec_value ds -> gram_lines (ds ++ 10 :: rest) = Throw.
Proof.
  intros ds rest F V. unfold gram_lines, gp_open. assert (NL : ~ In 10 ds) by (intros I; rewrite Forall_forall in F; specialize (F _ I); discriminate).
  destruct (getline_nl _ ds rest [] (left_start _) NL) as (s & -> & _). destruct ds as [|d ds]; [exfalso; change (dec_value []) with 0 in V; lia|].
  assert (Hd : is_digit d = true) by (inversion F; assumption). unfold stoull, c_str. cbv zeta.
  assert (EP : skip_space (S (length ((d :: ds) ++ [0]))) ((d :: ds) ++ [0]) 0 = Ok 0).
  { cbn [skip_space app]. change (rd (d :: ds ++ [0]) 0) with (Ok d). cbn [bind]. replace (is_space d) with false by (unfold is_digit, is_space in *; lia). reflexivity. }
  rewrite EP. cbn [bind]. change (rd ((d :: ds) ++ [0]) 0) with (Ok d). cbn [bind].
  replace (d =? 45) with false by (unfold is_digit in Hd; lia). replace (d =? 43) with false by (unfold is_digit in Hd; lia). cbn [orb].
  change (rd ((d :: ds) ++ [0]) 0) with (Ok d). cbn [bind]. rewrite Hd. cbn [negb].
  pose proof (read_digits_ok (d :: ds) F [] 0 [] 0 (S (length ((d :: ds) ++ [0])))) as K. cbn [app] in K. change (lenN (@nil N)) with 0 in K. cbn [app].
  rewrite K by ((cbn [length]; rewrite app_length; cbn [length]; lia) || reflexivity). cbn [bind]. unfold dec_value in V.
  destruct (N.leb_spec (2 ^ 64) (fold_left (fun a d => 10 * a + (d - 48)) (d :: ds) 0)); [reflexivity|exfalso; clear - V H; lia].
Qed.
Print Assumptions C44_overflow.
(** 18446744073709551616 = 2^64 *)
Example C44_overflow_example : Forall (fun c => is_digit c = true) (map (fun d => d + 48) [1;8;4;4;6;7;4;4;0;7;3;7;0;9;5;5;1;6;1;6]) /\
  2 ^ 64 <= dec_value (map (fun d => d + 48) [1;8;4;4;6;7;4;4;0;7;3;7;0;9;5;5;1;6;1;6]).
Proof. split; [cbv; repeat constructor|vm_compute; discriminate]. Qed.

(** "2", "a\t5", "b\t3" *)
Example C44_example :
  gram_lines [50; 10; 97; 9; 53; 10; 98; 9; 51; 10] = Ok [[97; 9; 53]; [98; 9; 51]] /\
  gram_lines [50; 10; 97; 9; 53; 10; 98; 9; 51] = Ok [[97; 9; 53]; [98; 9; 51]] /\
  gram_lines [51; 10; 97; 9; 53; 10; 98; 9; 51] = Ok [[97; 9; 53]; [98; 9; 51]; [98; 9; 51]] /\
  gram_lines [49; 10; 97; 9; 53; 10; 98; 9; 51; 10] = Ok [[97; 9; 53]].
Proof. repeat split. Qed.
