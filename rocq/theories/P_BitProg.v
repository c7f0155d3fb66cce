(** * Histories of bit_vector_builder operations against lists of bits *)
From Verif Require Import Prelude BitFacts M_Word P_Word M_Bits Spec P_Bits P_Builder P_Cursor.

(** A program building one or more builders with the public operations. *)
Inductive bprog :=
| BNew (size : N) (init : bool)
| BAppendBits (p : bprog) (v len : N)
| BAppend (p q : bprog)
| BZeroExtend (p : bprog) (k : N)
| BSet (p : bprog) (pos : N) (b : bool)
| BSetBits (p : bprog) (pos v len : N).

Fixpoint brun (p : bprog) : res bvb :=
  match p with
  | BNew n i => Ok (bvb_new n i)
  | BAppendBits p v len => b <- brun p ;; bvb_append_bits b v len
  | BAppend p q => b <- brun p ;; c <- brun q ;; bvb_append b c
  | BZeroExtend p k => b <- brun p ;; Ok (bvb_zero_extend b k)
  | BSet p pos x => b <- brun p ;; bvb_set b pos x
  | BSetBits p pos v len => b <- brun p ;; bvb_set_bits b pos v len
  end.

(** what it means, on lists of bits *)
Fixpoint bden (p : bprog) : list bool :=
  match p with
  | BNew n i => repN i n
  | BAppendBits p v len => bden p ++ bits_of v len
  | BAppend p q => bden p ++ bden q
  | BZeroExtend p k => bden p ++ repN false k
  | BSet p pos x => overwrite (bden p) pos [x]
  | BSetBits p pos v len => overwrite (bden p) pos (bits_of v len)
  end.

(** the preconditions the C++ operations assert *)
Fixpoint bwf (p : bprog) : Prop :=
  match p with
  | BNew n i => n + 64 < 2 ^ 64
  | BAppendBits p v len => bwf p /\ len <= 64 /\ v < 2 ^ len /\ lenN (bden p) + len + 64 < 2 ^ 64
  | BAppend p q => bwf p /\ bwf q /\ lenN (bden p) + lenN (bden q) + 64 < 2 ^ 64
  | BZeroExtend p k => bwf p /\ lenN (bden p) + k + 64 < 2 ^ 64
  | BSet p pos x => bwf p /\ pos < lenN (bden p)
  | BSetBits p pos v len => bwf p /\ len <= 64 /\ v < 2 ^ len /\ pos + len <= lenN (bden p)
  end.

(** ** facts about lists of bits *)
Lemma tb_num_of l i : N.testbit (num_of l) i = bit_at l i.
Proof.
  unfold bit_at. revert i. induction l as [|b l IH]; intros i; cbn [num_of].
  - rewrite N.bits_0. destruct (N.to_nat i); reflexivity.
  - rewrite N.add_comm. destruct (N.eq_dec i 0) as [->|Hi].
    + rewrite N.testbit_0_r. reflexivity.
    + replace i with (N.succ (N.pred i)) at 1 by lia. rewrite N.testbit_succ_r, IH.
      replace (N.to_nat i) with (S (N.to_nat (N.pred i))) by lia. reflexivity.
Qed.

Lemma bit_at_oob l i : lenN l <= i -> bit_at l i = false.
Proof. unfold bit_at, lenN. intros. apply nth_overflow. lia. Qed.
Lemma num_of_lt l : num_of l < 2 ^ lenN l.
Proof. apply lt_pow2_tb. intros i Hi. rewrite tb_num_of. apply bit_at_oob. assumption. Qed.
Lemma bit_at_nthN l i b : nthN l i = Some b -> bit_at l i = b.
Proof. unfold bit_at, nthN. intros. apply nth_error_nth. assumption. Qed.

Lemma bit_at_app l l' i : bit_at (l ++ l') i = if i <? lenN l then bit_at l i else bit_at l' (i - lenN l).
Proof.
  unfold bit_at, lenN. destruct (N.ltb_spec i (N.of_nat (length l))).
  - apply app_nth1. lia.
  - rewrite app_nth2 by lia. f_equal. lia.
Qed.
Lemma bit_at_bits_of v len i : bit_at (bits_of v len) i = (i <? len) && N.testbit v i.
Proof.
  destruct (N.ltb_spec i len).
  - apply bit_at_nthN. unfold bits_of. rewrite nthN_map, nthN_range by assumption. reflexivity.
  - apply bit_at_oob. unfold bits_of. rewrite lenN_map, lenN_range. assumption.
Qed.
Lemma bit_at_rep b n i : bit_at (repN b n) i = (i <? n) && b.
Proof.
  destruct (N.ltb_spec i n).
  - apply bit_at_nthN. apply nthN_rep. assumption.
  - apply bit_at_oob. rewrite lenN_rep. assumption.
Qed.
Lemma lenN_bits_of v len : lenN (bits_of v len) = len.
Proof. unfold bits_of. rewrite lenN_map, lenN_range. reflexivity. Qed.
Lemma lenN_overwrite {A} (l : list A) pos s : pos + lenN s <= lenN l -> lenN (overwrite l pos s) = lenN l.
Proof.
  unfold overwrite, lenN. intros. rewrite !app_length, firstn_length, skipn_length. lia.
Qed.
Lemma nth_skipn {A} (l : list A) k i d : nth i (skipn k l) d = nth (k + i) l d.
Proof.
  revert l. induction k as [|k IH]; intros l; [reflexivity|]. destruct l; [destruct i; reflexivity|]. cbn. apply IH.
Qed.
Lemma nth_firstn {A} (l : list A) k i d : nth i (firstn k l) d = if (i <? k)%nat then nth i l d else d.
Proof.
  revert l i. induction k as [|k IH]; intros l i; [destruct i; reflexivity|].
  destruct l; [destruct i; cbn [nth firstn]; match goal with |- context [if ?b then _ else _] => destruct b end; reflexivity|]. destruct i; [reflexivity|]. cbn. apply IH.
Qed.
Lemma nth_error_skipn_ {A} (l : list A) k i : nth_error (skipn k l) i = nth_error l (k + i).
Proof.
  revert l. induction k as [|k IH]; intros l; [reflexivity|]. destruct l; [destruct i; reflexivity|]. cbn. apply IH.
Qed.
Lemma nth_error_firstn_ {A} (l : list A) k i : nth_error (firstn k l) i = if (i <? k)%nat then nth_error l i else None.
Proof.
  revert l i. induction k as [|k IH]; intros l i; [destruct i; reflexivity|].
  destruct l; [destruct i; cbn [nth_error firstn]; match goal with |- context [if ?b then _ else _] => destruct b end; reflexivity|].
  destruct i; [reflexivity|]. cbn. apply IH.
Qed.
Lemma nthN_slice {A} (l : list A) pos len i : nthN (slice l pos len) i = if i <? len then nthN l (pos + i) else None.
Proof.
  unfold slice, nthN. rewrite nth_error_firstn_, nth_error_skipn_.
  destruct (Nat.ltb_spec (N.to_nat i) (N.to_nat len)); destruct (N.ltb_spec i len); try (exfalso; lia); [|reflexivity].
  f_equal. lia.
Qed.
Lemma bit_at_overwrite l pos s i : pos + lenN s <= lenN l ->
  bit_at (overwrite l pos s) i = if (pos <=? i) && (i <? pos + lenN s) then bit_at s (i - pos) else bit_at l i.
Proof.
  intros H. unfold overwrite. rewrite !bit_at_app.
  assert (L : lenN (firstn (N.to_nat pos) l) = pos) by (unfold lenN in *; rewrite firstn_length; lia).
  rewrite L. destruct (N.ltb_spec i pos).
  - destruct (N.leb_spec pos i); [lia|]. cbn [andb]. unfold bit_at. rewrite nth_firstn.
    destruct (Nat.ltb_spec (N.to_nat i) (N.to_nat pos)); [reflexivity|lia].
  - destruct (N.leb_spec pos i); [|lia]. cbn [andb].
    destruct (N.ltb_spec (i - pos) (lenN s)); destruct (N.ltb_spec i (pos + lenN s)); try (exfalso; lia); [reflexivity|].
    unfold bit_at. rewrite nth_skipn. f_equal. unfold lenN in *. lia.
Qed.
Lemma bit_at_slice l pos len i : bit_at (slice l pos len) i = (i <? len) && bit_at l (pos + i).
Proof.
  unfold slice, bit_at. rewrite nth_firstn, nth_skipn.
  destruct (Nat.ltb_spec (N.to_nat i) (N.to_nat len)); destruct (N.ltb_spec i len); try (exfalso; lia); [|reflexivity].
  cbn [andb]. f_equal. lia.
Qed.
Lemma num_of_slice l pos len : num_of (slice l pos len) = field (num_of l) pos len.
Proof.
  apply tb_eq. intros i. rewrite tb_num_of, tb_field, tb_num_of, bit_at_slice. rewrite (N.add_comm pos). reflexivity.
Qed.
Lemma num_eq V l : (forall i, N.testbit V i = bit_at l i) -> V = num_of l.
Proof. intros H. apply tb_eq. intros i. rewrite H, tb_num_of. reflexivity. Qed.

(** ** refinement *)
Theorem brun_ok p : bwf p -> exists b, brun p = Ok b /\ brep b (num_of (bden p)) (lenN (bden p)) /\
  lenN (bden p) + 64 < 2 ^ 64.
Proof.
  induction p as [n i|p IH v len|p IHp q IHq|p IH k|p IH pos x|p IH pos v len]; cbn [bwf brun bden].
  - intros H. exists (bvb_new n i). split; [reflexivity|]. rewrite lenN_rep. split; [|assumption].
    destruct i.
    + replace (num_of (repN true n)) with (N.ones n); [apply bvb_new1_rep|].
      apply num_eq. intros i. rewrite tb_ones, bit_at_rep, andb_true_r. reflexivity.
    + replace (num_of (repN false n)) with 0; [apply bvb_new0_rep|].
      apply num_eq. intros i. rewrite N.bits_0, bit_at_rep, andb_false_r. reflexivity.
  - intros (W & Hl & Hv & Hs). destruct (IH W) as (b & E & R & L). rewrite E. cbn [bind].
    destruct (bvb_append_bits_rep b _ _ v len R Hl Hv L) as (b' & E' & R'). exists b'. split; [assumption|].
    rewrite lenN_app, lenN_bits_of. split; [|lia].
    replace (num_of (bden p ++ bits_of v len)) with (N.lor (num_of (bden p)) (N.shiftl v (lenN (bden p)))); [assumption|].
    apply num_eq. intros i. rewrite N.lor_spec, tb_num_of, tb_shl, bit_at_app, bit_at_bits_of.
    destruct (N.ltb_spec i (lenN (bden p))).
    + destruct (N.leb_spec (lenN (bden p)) i); [lia|]. apply orb_false_r.
    + rewrite bit_at_oob by assumption. destruct (N.leb_spec (lenN (bden p)) i); [|lia].
      destruct (N.ltb_spec (i - lenN (bden p)) len); [reflexivity|]. cbn. apply (tb_lt v len); assumption.
  - intros (Wp & Wq & Hs). destruct (IHp Wp) as (b & E & R & L). destruct (IHq Wq) as (c & Ec & Rc & Lc).
    rewrite E, Ec. cbn [bind]. destruct (bvb_append_rep b _ _ c _ _ R Rc Hs) as (b' & E' & R'). exists b'.
    split; [assumption|]. rewrite lenN_app. split; [|lia].
    replace (num_of (bden p ++ bden q)) with (N.lor (num_of (bden p)) (N.shiftl (num_of (bden q)) (lenN (bden p)))); [assumption|].
    apply num_eq. intros i. rewrite N.lor_spec, tb_shl, !tb_num_of, bit_at_app.
    destruct (N.ltb_spec i (lenN (bden p))).
    + destruct (N.leb_spec (lenN (bden p)) i); [lia|]. apply orb_false_r.
    + rewrite bit_at_oob by assumption. destruct (N.leb_spec (lenN (bden p)) i); [|lia]. reflexivity.
  - intros (W & Hs). destruct (IH W) as (b & E & R & L). rewrite E. cbn [bind].
    eexists. split; [reflexivity|]. rewrite lenN_app, lenN_rep. split; [|lia].
    replace (num_of (bden p ++ repN false k)) with (num_of (bden p)); [apply bvb_zero_extend_rep; assumption|].
    apply num_eq. intros i. rewrite tb_num_of, bit_at_app, bit_at_rep, andb_false_r.
    destruct (N.ltb_spec i (lenN (bden p))); [reflexivity|]. apply bit_at_oob. assumption.
  - intros (W & Hp). destruct (IH W) as (b & E & R & L). rewrite E. cbn [bind].
    destruct (bvb_set_rep b _ _ pos x R Hp) as (b' & E' & R'). exists b'. split; [assumption|].
    assert (S1 : lenN [x] = 1) by reflexivity.
    rewrite lenN_overwrite by (rewrite S1; lia). split; [|assumption].
    replace (num_of (overwrite (bden p) pos [x])) with (splice (num_of (bden p)) pos (N.b2n x) 1); [assumption|].
    apply num_eq. intros i. rewrite bit_at_overwrite, S1, tb_splice, tb_num_of by (rewrite ?S1; destruct x; cbn; lia).
    destruct (N.leb_spec pos i); destruct (N.ltb_spec i (pos + 1)); cbn [andb]; try reflexivity.
    replace (i - pos) with 0 by lia. rewrite N.b2n_bit0. reflexivity.
  - intros (W & Hl & Hv & Hp). destruct (IH W) as (b & E & R & L). rewrite E. cbn [bind].
    destruct (bvb_set_bits_rep b _ _ pos v len R Hl Hv Hp) as (b' & E' & R'). exists b'. split; [assumption|].
    rewrite lenN_overwrite by (rewrite lenN_bits_of; lia). split; [|assumption].
    replace (num_of (overwrite (bden p) pos (bits_of v len))) with (splice (num_of (bden p)) pos v len); [assumption|].
    apply num_eq. intros i. rewrite bit_at_overwrite, lenN_bits_of, tb_splice, tb_num_of, bit_at_bits_of by (rewrite ?lenN_bits_of; lia || assumption).
    destruct (N.leb_spec pos i); destruct (N.ltb_spec i (pos + len)); cbn [andb]; try reflexivity.
    destruct (N.ltb_spec (i - pos) len); [reflexivity|lia].
Qed.

Lemma brun_vrep p b : bwf p -> brun p = Ok b ->
  vrep (bv_build b) (num_of (bden p)) (lenN (bden p)) /\ lenN (bden p) + 64 < 2 ^ 64.
Proof.
  intros W E. destruct (brun_ok p W) as (b' & E' & R & L). rewrite E in E'. injection E' as <-.
  split; [apply brep_build|]; assumption.
Qed.

Lemma positions_fpos b l p : positions b l p = fpos (fun i => Bool.eqb (bit_at l i) b) p (lenN l).
Proof.
  unfold positions. rewrite <- (N.sub_0_r (lenN l)) at 1.
  change (range (lenN l - 0)) with (seqN 0 (N.to_nat (lenN l - 0))).
  change (filter ?f (seqN 0 (N.to_nat (lenN l - 0)))) with (fpos f 0 (lenN l)).
  destruct (N.le_ge_cases p (lenN l)).
  - rewrite (fpos_split _ 0 p) by lia. rewrite (fpos_none _ 0 p).
    + cbn [app]. apply fpos_ext. intros i Hi. destruct (N.leb_spec p i); [reflexivity|lia].
    + intros i Hi. destruct (N.leb_spec p i); [lia|reflexivity].
  - rewrite (fpos_empty _ p) by lia. apply fpos_none. intros i Hi. destruct (N.leb_spec p i); [lia|reflexivity].
Qed.
Lemma positions_true l p : positions true l p = fpos (N.testbit (num_of l)) p (lenN l).
Proof.
  rewrite positions_fpos. apply fpos_ext. intros i Hi. rewrite tb_num_of. destruct (bit_at l i); reflexivity.
Qed.

(** ** histories of cursor moves *)
Inductive cmove := CNext | CSkip (k : N).

(* runs the moves; after a move, the position reported *)
Fixpoint crun (v : bv) (it : uit) (ms : list cmove) : res (list N) :=
  match ms with
  | [] => Ok []
  | CNext :: r => ' (q, it) <- uit_next v it ;; qs <- crun v it r ;; Ok (q :: qs)
  | CSkip k :: r => it <- uit_skip v it k ;; qs <- crun v it r ;; Ok (u_pos it :: qs)
  end.

(* the reported positions, on lists; None if some requested one does not exist *)
Fixpoint cspec (l : list bool) (p : N) (ms : list cmove) : option (list N) :=
  match ms with
  | [] => Some []
  | CNext :: r => match nthN (positions true l p) 0 with
                  | Some q => option_map (cons q) (cspec l (q + 1) r)
                  | None => None
                  end
  | CSkip k :: r => match nthN (positions true l p) k with
                    | Some q => option_map (cons q) (cspec l q r)
                    | None => None
                    end
  end.

Lemma words_for_mul n : n + 64 < 2 ^ 64 -> 64 * words_for n < 2 ^ 64.
Proof. unfold words_for. intros. dlia. Qed.

Lemma crun_ok l v : vrep v (num_of l) (lenN l) -> lenN l + 64 < 2 ^ 64 ->
  forall ms it p out, uit_at v (num_of l) it p -> cspec l p ms = Some out -> crun v it ms = Ok out.
Proof.
  intros R L. pose proof (words_for_mul _ L) as L'.
  induction ms as [|[|k] ms IH]; intros it p out A S; cbn [cspec crun] in *.
  - congruence.
  - destruct (nthN (positions true l p) 0) as [q|] eqn:E; [|discriminate]. rewrite positions_true in E.
    destruct (cspec l (q + 1) ms) as [out'|] eqn:S'; [|discriminate]. cbn [option_map] in S. injection S as <-.
    destruct (uit_next_ok v _ _ it p q R L' A E) as (it' & N1 & N2 & N3). rewrite N1. cbn [bind].
    rewrite (IH it' _ _ N2 S'). reflexivity.
  - destruct (nthN (positions true l p) k) as [q|] eqn:E; [|discriminate]. rewrite positions_true in E.
    destruct (cspec l q ms) as [out'|] eqn:S'; [|discriminate]. cbn [option_map] in S. injection S as <-.
    destruct (uit_skip_ok v _ _ it p k q R L' A E) as (it' & N1 & N2 & N3). rewrite N1. cbn [bind].
    rewrite (IH it' _ _ N2 S'), N3. reflexivity.
Qed.
