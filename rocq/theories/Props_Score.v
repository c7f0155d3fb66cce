(** * Property C27: the circular window of the words scored last *)
From Coq Require Import Floats.SpecFloat.
From Verif Require Import Prelude BitFacts M_Score P_Score1.

Section WINDOW.
Context {W : Type}.
(** a history of calls: [Some x] = push_back(x), [None] = init() *)
Definition cb_apply (c : cbuf W) (op : option W) : res (cbuf W) :=
  match op with Some x => cb_push c x | None => Ok (cb_init c) end.
(** specification: what was pushed since the last init, most recent first *)
Definition recent (ops : list (option W)) : list W :=
  fold_left (fun r op => match op with Some x => x :: r | None => [] end) ops [].

(** [*it] after [i] increments of the iterator returned by rbegin() *)
Definition nth_back (c : cbuf W) (i : N) : res W :=
  ri_deref c (Nat.iter (N.to_nat i) (ri_next c) (cb_rbegin c)).

Lemma apply_holds ops : forall c xs, cb_holds c xs ->
  exists c', foldM cb_apply ops c = Ok c' /\ cb_holds c' (fold_left (fun r op => match op with Some x => x :: r | None => [] end) ops xs) /\ cb_capacity c' = cb_capacity c.
Proof.
  induction ops as [|[x|] ops IH]; intros c xs H; cbn [foldM fold_left cb_apply].
  - eauto.
  - destruct (cb_push_holds c xs x H) as (c' & E & H' & EC). rewrite E. cbn [bind]. rewrite <- EC. apply IH. exact H'.
  - cbn [bind]. destruct (IH (cb_init c) [] (cb_init_holds c xs H)) as (c' & E & H' & EC). exists c'. auto.
Qed.
Lemma nth_back_ok c xs i x : cb_holds c xs -> i < cb_capacity c -> nthN xs i = Some x -> nth_back c i = Ok x.
Proof.
  intros H Hi Hx. unfold nth_back.
  assert (P : forall k, k < cb_capacity c -> Nat.iter (N.to_nat k) (ri_next c) (cb_rbegin c) = cpos (cb_capacity c) (cb_end c) k).
  { intro k. induction k as [|k IH] using N.peano_ind; intro Hk.
    - cbn. eapply cb_rbegin_pos; eauto.
    - rewrite N2Nat.inj_succ. cbn [Nat.iter nat_rect]. change (nat_rect (fun _ => N) (cb_rbegin c) (fun _ => ri_next c) (N.to_nat k)) with (Nat.iter (N.to_nat k) (ri_next c) (cb_rbegin c)).
      rewrite IH by lia. rewrite (ri_next_pos c xs) by (assumption || lia). f_equal. lia. }
  rewrite P by assumption. eapply ri_deref_pos; eauto.
Qed.

Theorem C27_window_holds_most_recent : forall (w0 : W) capacity ops, 1 <= capacity < 2 ^ 63 ->
  exists c, foldM cb_apply ops (cb_new w0 capacity) = Ok c /\
    forall i x, i < capacity -> nthN (recent ops) i = Some x -> nth_back c i = Ok x.
Proof.
  intros w0 capacity ops HC. destruct (apply_holds ops _ _ (cb_new_holds w0 capacity HC)) as (c & E & H & EC).
  exists c. split; [exact E|]. intros i x Hi Hx. eapply nth_back_ok; eauto. rewrite EC. exact Hi.
Qed.

(** beyond what was pushed (or beyond the capacity) the iterator does not stop: it goes round and
    returns older or default contents *)
Theorem C27_iterator_wraps : forall (w0 : W) capacity ops, 1 <= capacity < 2 ^ 63 ->
  exists c, foldM cb_apply ops (cb_new w0 capacity) = Ok c /\ nth_back c capacity = nth_back c 0.
Proof.
  intros w0 capacity ops HC. destruct (apply_holds ops _ _ (cb_new_holds w0 capacity HC)) as (c & E & H & EC). cbn [cb_new cb_capacity] in EC.
  exists c. split; [exact E|]. unfold nth_back. f_equal.
  assert (P : forall k, k < cb_capacity c -> Nat.iter (N.to_nat k) (ri_next c) (cb_rbegin c) = cpos (cb_capacity c) (cb_end c) k).
  { intro k. induction k as [|k IH] using N.peano_ind; intro Hk.
    - cbn. eapply cb_rbegin_pos; eauto.
    - rewrite N2Nat.inj_succ. cbn [Nat.iter nat_rect]. change (nat_rect (fun _ => N) (cb_rbegin c) (fun _ => ri_next c) (N.to_nat k)) with (Nat.iter (N.to_nat k) (ri_next c) (cb_rbegin c)).
      rewrite IH by lia. erewrite ri_next_pos; [f_equal; lia|exact H|lia]. }
  replace capacity with (N.succ (capacity - 1)) by lia. rewrite N2Nat.inj_succ. cbn [Nat.iter nat_rect].
  change (nat_rect (fun _ => N) (cb_rbegin c) (fun _ => ri_next c) (N.to_nat (capacity - 1))) with (Nat.iter (N.to_nat (capacity - 1)) (ri_next c) (cb_rbegin c)).
  rewrite P by lia. cbn. rewrite (cb_rbegin_pos _ _ H). rewrite EC.
  destruct H as [H1 H2 H3 H4 H5]. rewrite EC in *. unfold ri_next, cpos. rewrite EC.
  destruct (N.leb_spec (capacity - 1 + 1) (cb_end c)) as [Z|Z]; [lia|]. destruct (N.leb_spec (0 + 1) (cb_end c)) as [Y|Y].
  - destruct (N.eqb_spec (cb_end c + capacity - 1 - (capacity - 1)) 0); [lia|]. rewrite sub64_small by lia. change (N.to_nat 0) with 0%nat. cbn [Nat.iter nat_rect]. lia.
  - destruct (N.eqb_spec (cb_end c + capacity - 1 - (capacity - 1)) 0); [|lia]. rewrite sub64_small by lia. change (N.to_nat 0) with 0%nat. cbn [Nat.iter nat_rect]. lia.
Qed.
End WINDOW.

Print Assumptions C27_window_holds_most_recent.
Print Assumptions C27_iterator_wraps.

Example C27_nonvacuous : exists c, foldM cb_apply [Some 1; Some 2; None; Some 3; Some 4; Some 5; Some 6] (cb_new 0 3) = Ok c /\
  recent [Some 1; Some 2; None; Some 3; Some 4; Some 5; Some 6] = [6; 5; 4; 3] /\
  nth_back c 0 = Ok 6 /\ nth_back c 1 = Ok 5 /\ nth_back c 2 = Ok 4 /\ nth_back c 3 = Ok 6.
Proof. eexists. vm_compute. repeat split; reflexivity. Qed.
