(** * Property C35: record pools *)
From Verif Require Import Prelude BitFacts Spec M_Text P_Text2 M_Pool P_Pool.

Inductive pool_op (A : Type) := Append (gram : list N) (a : A) | Clear.
Arguments Append {A}. Arguments Clear {A}.

(** what a history does to the model: the answers of append() and the final pool *)
Fixpoint pool_run {A} (p : pool A) (ops : list (pool_op A)) : list bool * pool A :=
  match ops with
  | [] => ([], p)
  | Append g a :: r => let '(ok, p) := pool_append p g a in let '(fs, p) := pool_run p r in (ok :: fs, p)
  | Clear :: r => pool_run (pool_clear p) r
  end.
(** what it should do: [held] are the records held so far, [room] the bytes they may occupy;
    a record is refused only if it does not fit; a record without bytes is accepted and dropped *)
Definition bytes_of {A} (rs : list (list N * A)) : N := sumN (map (fun r => lenN (fst r)) rs).
Fixpoint pool_should {A} (room : N) (held : list (list N * A)) (ops : list (pool_op A)) : list bool * list (list N * A) :=
  match ops with
  | [] => ([], held)
  | Append [] a :: r => let '(fs, h) := pool_should room held r in (true :: fs, h)
  | Append g a :: r =>
      if bytes_of held + lenN g <=? room
      then let '(fs, h) := pool_should room (held ++ [(g, a)]) r in (true :: fs, h)
      else let '(fs, h) := pool_should room held r in (false :: fs, h)
  | Clear :: r => pool_should room [] r
  end.

Lemma bytes_of_concat {A} (rs : list (list N * A)) : lenN (concat (map fst rs)) = bytes_of rs.
Proof. unfold bytes_of. induction rs as [|r rs IH]; [reflexivity|]. cbn [map concat sumN fold_right]. rewrite lenN_app. f_equal. exact IH. Qed.

Theorem C35_history : forall (A : Type) (room : N) (ops : list (pool_op A)),
  let '(answers, p) := pool_run (pool_new room) ops in
  let '(should, held) := pool_should room [] ops in
  answers = should /\ lenN (p_index p) = lenN held /\
  forall k g a, nthN held k = Some (g, a) -> pool_record p k = Ok (g, a).
Proof.
  intros A room ops.
  assert (G : forall ops p held, pool_rep p room held ->
    let '(answers, p') := pool_run p ops in let '(should, held') := pool_should room held ops in
    answers = should /\ @pool_rep A p' room held').
  { induction ops0 as [|[g a|] ops0 IH]; intros p held R; cbn [pool_run pool_should].
    - auto.
    - destruct g as [|x g].
      + cbn [pool_append]. unfold pool_append. change (lenN []) with 0. change (0 =? 0) with true. cbn iota.
        specialize (IH p held R). destruct (pool_run p ops0), (pool_should room held ops0). destruct IH as [-> ?]. auto.
      + destruct (N.leb_spec (bytes_of held + lenN (x :: g)) room) as [L|L].
        * destruct (pool_append_rep p room held (x :: g) a R ltac:(discriminate) ltac:(rewrite bytes_of_concat; exact L)) as (p' & E & R').
          rewrite E. specialize (IH p' _ R'). destruct (pool_run p' ops0), (pool_should room (held ++ [(x :: g, a)]) ops0). destruct IH as [-> ?]. auto.
        * assert (E : pool_append p (x :: g) a = (false, p)).
          { pose proof R as (H1 & H2 & H3 & H4 & H5 & H6). unfold pool_append. rewrite H1, H4, bytes_of_concat.
            destruct (N.eqb_spec (lenN (x :: g)) 0) as [Z|_]; [rewrite lenN_cons in Z; lia|].
            destruct (N.ltb_spec room (bytes_of held + lenN (x :: g))); [reflexivity|lia]. }
          rewrite E. specialize (IH p held R). destruct (pool_run p ops0), (pool_should room held ops0). destruct IH as [-> ?]. auto.
    - apply IH. eapply pool_clear_rep. exact R. }
  specialize (G ops (pool_new room) [] (pool_new_rep room)).
  destruct (pool_run (pool_new room) ops) as [fs p], (pool_should room [] ops) as [gs held]. destruct G as [-> R].
  split; [reflexivity|]. split; [apply R|]. intros k g a H. eapply pool_record_ok; eauto.
Qed.
(** loading the lines of a count file: every record, in order, or an exception when they do not fit *)
Theorem C35_load : forall room (gs : list (list N * N)),
  Forall (fun r => fst r <> [] /\ ~ In 9 (fst r) /\ snd r < 2 ^ 64) gs -> bytes_of gs <= room ->
  exists p, pool_load (pool_new room) (map (fun r => format_count_line (fst r) (snd r)) gs) = Ok p /\
    lenN (p_index p) = lenN gs /\ forall k g c, nthN gs k = Some (g, c) -> pool_record p k = Ok (g, c).
Proof.
  intros room gs HF HB. destruct (pool_load_lines_ok gs (pool_clear (pool_new room)) room []) as (p & E & R).
  - apply (pool_clear_rep _ _ []). apply pool_new_rep.
  - assumption.
  - cbn [app]. rewrite bytes_of_concat. assumption.
  - exists p. split; [exact E|]. split; [apply R|]. intros k g c H. eapply pool_record_ok; [exact R|exact H].
Qed.
(** loading a file whose grams do not fit is an error, never a silent truncation *)
Lemma load_too_big : forall (gs : list (list N * N)) p M rs, pool_rep p M rs ->
  Forall (fun r => fst r <> [] /\ ~ In 9 (fst r) /\ snd r < 2 ^ 64) gs ->
  M < lenN (concat (map fst (rs ++ gs))) ->
  pool_load_lines p (map (fun r => format_count_line (fst r) (snd r)) gs) = Throw.
Proof.
  induction gs as [|[g c] gs IH]; intros p M rs R HF HM; cbn [map pool_load_lines].
  - rewrite app_nil_r in HM. destruct R as (H1 & H2 & H3 & H4 & H5 & H6 & H7). rewrite H4 in H5. lia.
  - inversion HF as [|? ? (A1 & A2 & A3) HF']; subst. cbn [fst snd] in *. rewrite parse_format by assumption. cbn [bind fst snd].
    assert (T : firstn (N.to_nat (lenN g - 0)) (skipn (N.to_nat 0) (c_str (format_count_line g c))) = g).
    { rewrite N.sub_0_r. unfold lenN. rewrite Nat2N.id. change (N.to_nat 0) with 0%nat. cbn [skipn]. unfold c_str, format_count_line.
      rewrite <- app_assoc, firstn_app, Nat.sub_diag, firstn_all. cbn [firstn]. apply app_nil_r. }
    rewrite T.
    destruct (N.le_gt_cases (lenN (concat (map fst rs)) + lenN g) M) as [F|F].
    + destruct (pool_append_rep p M rs g c R A1) as (p' & E & R'); [exact F|].
      rewrite E. apply (IH _ M (rs ++ [(g, c)]) R' HF'). rewrite <- app_assoc. exact HM.
    + destruct R as (H1 & H2 & H3 & H4 & H5 & H6 & H7). unfold pool_append. rewrite H1, H4.
      destruct (N.eqb_spec (lenN g) 0) as [Z|Z]; [destruct g; [congruence|rewrite lenN_cons in Z; lia]|].
      destruct (N.ltb_spec M (lenN (concat (map fst rs)) + lenN g)); [reflexivity|lia].
Qed.
Theorem C35_load_all_or_error : forall room (gs : list (list N * N)),
  Forall (fun r => fst r <> [] /\ ~ In 9 (fst r) /\ snd r < 2 ^ 64) gs ->
  (room < bytes_of gs -> pool_load (pool_new room) (map (fun r => format_count_line (fst r) (snd r)) gs) = Throw) /\
  (forall p, pool_load (pool_new room) (map (fun r => format_count_line (fst r) (snd r)) gs) = Ok p ->
     lenN (p_index p) = lenN gs /\ forall k g c, nthN gs k = Some (g, c) -> pool_record p k = Ok (g, c)).
Proof.
  intros room gs HF.
  assert (B : room < bytes_of gs -> pool_load (pool_new room) (map (fun r => format_count_line (fst r) (snd r)) gs) = Throw).
  { intros H. apply (load_too_big gs _ room []); [|assumption|].
    - apply (pool_clear_rep _ _ []). apply pool_new_rep.
    - cbn [app]. rewrite bytes_of_concat. exact H. }
  split; [exact B|]. intros p E. destruct (N.le_gt_cases (bytes_of gs) room) as [F|F]; [|rewrite (B F) in E; discriminate].
  destruct (C35_load room gs HF F) as (p' & E' & R). rewrite E' in E. injection E as <-. exact R.
Qed.
(** a record with an empty gram is acknowledged but not handed back *)
Theorem C35_empty_gram_refuted :
  ~ (forall room (g : list N) (a : N) p, pool_append (pool_new room) g a = (true, p) -> pool_record p 0 = Ok (g, a)).
Proof. intros H. specialize (H 10 [] 7 _ eq_refl). vm_compute in H. discriminate. Qed.
Example C35_example :
  pool_should 5 [] [Append [97; 98] 1; Append [99; 100; 101; 102] 2; Append [103] 3; Clear; Append [104] 4] =
    ([true; false; true; true], [([104], 4)]) /\
  (let '(fs, p) := pool_run (pool_new 5) [Append [97; 98] 1; Append [99; 100; 101; 102] 2; Append [103] 3] in
   (fs, mapM (pool_record p) [0; 1])) = ([true; false; true], Ok [([97; 98], 1); ([103], 3)]).
Proof. vm_compute. auto. Qed.
Print Assumptions C35_history.
Print Assumptions C35_load.
Print Assumptions C35_load_all_or_error.
Example C35_too_big : pool_load (pool_new 3) (map (fun r => format_count_line (fst r) (snd r)) [([97; 98], 1); ([99; 100], 2)]) = Throw.
Proof. vm_compute. reflexivity. Qed.
