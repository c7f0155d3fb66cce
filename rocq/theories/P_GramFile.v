(** * Proofs about the reading of count files *)
From Coq Require Import Floats.SpecFloat.
From Verif Require Import Prelude BitFacts M_Word M_Text P_Text P_Text2 M_ArpaFile Spec_ArpaFile P_ArpaFile M_GramFile Spec_GramFile Spec.

(** a good stream with [post] left to read *)
Definition left_of (s : ist) (post : list N) : Prop :=
  is_eof s = false /\ is_fail s = false /\ is_pos s <= lenN (is_data s) /\ skipn (N.to_nat (is_pos s)) (is_data s) = post.
Lemma left_start data : left_of (mkist data 0 false false) data.
Proof. split; [reflexivity|]. split; [reflexivity|]. split; [apply N.le_0_l|reflexivity]. Qed.
Lemma getline_nl s l post line : left_of s (l ++ 10 :: post) -> ~ In 10 l -> exists s', getline s line = (s', l) /\ left_of s' post.
Proof.
  intros (E1 & E2 & P & SS) H. unfold getline, is_good. rewrite E1, E2. cbn [orb negb]. rewrite SS, until_nl_ok by exact H.
  assert (LEN : lenN (l ++ 10 :: post) = lenN l + 1 + lenN post) by (rewrite lenN_app, lenN_cons; lia).
  destruct (N.eqb_spec (lenN l) (lenN (l ++ 10 :: post))) as [X|X]; [exfalso; lia|].
  eexists. split; [reflexivity|]. split; [reflexivity|]. split; [reflexivity|]. cbn [is_pos is_data].
  assert (LD : lenN (is_data s) = is_pos s + lenN (l ++ 10 :: post)). { rewrite <- SS. unfold lenN in *. rewrite skipn_length. lia. }
  split; [lia|]. replace (N.to_nat (is_pos s + lenN l + 1)) with (N.to_nat (is_pos s) + S (length l))%nat by (unfold lenN; lia).
  rewrite <- skipn_skipn_, SS. replace (l ++ 10 :: post) with ((l ++ [10]) ++ post) by (rewrite <- app_assoc; reflexivity).
  replace (S (length l)) with (length (l ++ [10])) by (rewrite app_length; cbn; lia). apply skipn_app_len.
Qed.
(** the last bytes of a file, without newline *)
Lemma getline_last s l line : left_of s l -> ~ In 10 l -> exists s', getline s line = (s', l) /\ is_good s' = false.
Proof.
  intros (E1 & E2 & P & SS) H. unfold getline, is_good. rewrite E1, E2. cbn [orb negb]. rewrite SS, until_nl_end by exact H. rewrite N.eqb_refl.
  eexists. split; reflexivity.
Qed.
Lemma getline_bad s line : is_good s = false -> exists s', getline s line = (s', line) /\ is_good s' = false.
Proof. intros H. unfold getline. rewrite H. eexists. split; [reflexivity|]. unfold is_good. cbn [is_eof is_fail]. rewrite orb_true_r. reflexivity. Qed.
Lemma lines_bad : forall n s line, is_good s = false -> gp_lines n s line = repeat line n.
Proof.
  induction n as [|n IH]; intros s line H; [reflexivity|]. cbn [gp_lines repeat]. destruct (getline_bad s line H) as (s' & -> & H'). f_equal. apply IH. exact H'.
Qed.
Lemma lines_ok lines : forall s line post, Forall (fun l => ~ In 10 l) lines -> left_of s (text_of lines ++ post) -> forall m,
  exists s', gp_lines (length lines + m) s line = lines ++ gp_lines m s' (last lines line) /\ left_of s' post.
Proof.
  induction lines as [|l lines IH]; intros s line post F H m; [exists s; split; [reflexivity|exact H]|].
  rewrite text_of_cons in H. destruct (getline_nl s l _ line H (Forall_inv F)) as (s1 & E & H1).
  destruct (IH s1 l post (Forall_inv_tail F) H1 m) as (s' & E' & H'). exists s'. split; [|exact H'].
  change (length (l :: lines) + m)%nat with (S (length lines + m)). cbn [gp_lines]. rewrite E, E'. cbn [app]. f_equal. f_equal. f_equal.
  destruct lines as [|l2 lines]; [reflexivity|]. clear. change (last (l :: l2 :: lines) line) with (last (l2 :: lines) line). revert l2. induction lines as [|l3 lines IH]; intros l2; [reflexivity|].
  change (last (l2 :: l3 :: lines) l) with (last (l3 :: lines) l). change (last (l2 :: l3 :: lines) line) with (last (l3 :: lines) line). apply IH.
Qed.
Lemma digits_no_nl n : n < 2 ^ 64 -> ~ In 10 (decimal n).
Proof. intros Hn I. destruct (to_string_ok n Hn) as (_ & _ & F). rewrite Forall_forall in F. specialize (F _ I). discriminate. Qed.
Lemma stoull_ok n : n < 2 ^ 64 -> stoull (decimal n) = Ok n.
Proof.
  intros Hn. destruct (to_string_ok n Hn) as (V & NE & F). unfold decimal, stoull, c_str.
  destruct (to_string n) as [|d ds] eqn:ED; [congruence|]. assert (Hd : is_digit d = true) by (inversion F; assumption).
  assert (EP : skip_space (S (length ((d :: ds) ++ [0]))) ((d :: ds) ++ [0]) 0 = Ok 0).
  { cbn [skip_space app]. change (rd (d :: ds ++ [0]) 0) with (Ok d). cbn [bind]. replace (is_space d) with false by (unfold is_digit, is_space in *; lia). reflexivity. }
  rewrite EP. cbn [bind]. change (rd ((d :: ds) ++ [0]) 0) with (Ok d). cbn [bind].
  replace (d =? 45) with false by (unfold is_digit in Hd; lia). replace (d =? 43) with false by (unfold is_digit in Hd; lia). cbn [orb].
  change (rd ((d :: ds) ++ [0]) 0) with (Ok d). cbn [bind]. rewrite Hd. cbn [negb].
  pose proof (read_digits_ok (d :: ds) F [] 0 [] 0 (S (length ((d :: ds) ++ [0])))) as K. cbn [app] in K. change (lenN (@nil N)) with 0 in K. cbn [app].
  rewrite K by ((cbn [length]; rewrite app_length; cbn [length]; lia) || reflexivity). cbn [bind]. unfold dec_value in V. rewrite V.
  destruct (N.leb_spec (2 ^ 64) n); [lia|reflexivity].
Qed.
Lemma gp_open_ok n rest : 0 < n < 2 ^ 64 -> exists s, gp_open (decimal n ++ 10 :: rest) = Ok (n, s) /\ left_of s rest.
Proof.
  intros Hn. destruct (getline_nl _ (decimal n) rest [] (left_start _) (digits_no_nl n ltac:(lia))) as (s & E & H). exists s. split; [|exact H].
  unfold gp_open. rewrite E. pose proof (proj1 (proj2 (to_string_ok n ltac:(lia)))) as NE. destruct (decimal n) as [|d ds] eqn:ED; [contradiction|]. rewrite <- ED, stoull_ok by lia. cbn [bind].
  destruct (N.eqb_spec n 0); [lia|reflexivity].
Qed.
