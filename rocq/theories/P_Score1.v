(** * Proofs about the circular buffer *)
From Coq Require Import Floats.SpecFloat.
From Verif Require Import Prelude M_Word BitFacts M_Score.

Section CB.
Context {W : Type}.
(** position of the i-th most recent element *)
Definition cpos (cap e i : N) : N := if i + 1 <=? e then e - 1 - i else e + cap - 1 - i.
(** c holds xs, the most recent first *)
Record cb_holds (c : cbuf W) (xs : list W) : Prop := mkcbh {
  ch_cap : 1 <= cb_capacity c < 2 ^ 63;
  ch_data : lenN (cb_data c) = cb_capacity c;
  ch_end : cb_end c < cb_capacity c;
  ch_begin : cb_begin c < cb_capacity c;
  ch_at : forall i, i < cb_capacity c -> i < lenN xs ->
    nthN (cb_data c) (cpos (cb_capacity c) (cb_end c) i) = nthN xs i }.

Lemma cb_new_holds w0 cap : 1 <= cap < 2 ^ 63 -> cb_holds (cb_new w0 cap) [].
Proof.
  intro H. constructor; cbn -[lenN]; try lia; [apply lenN_rep|]. change (lenN (@nil W)) with 0. lia.
Qed.
Lemma cb_init_holds c xs : cb_holds c xs -> cb_holds (cb_init c) [].
Proof.
  intros [H1 H2 H3 H4 H5]. constructor; cbn -[lenN]; try lia. change (lenN (@nil W)) with 0. lia.
Qed.
Lemma cb_push_holds c xs x : cb_holds c xs -> exists c', cb_push c x = Ok c' /\ cb_holds c' (x :: xs) /\ cb_capacity c' = cb_capacity c.
Proof.
  intros [H1 H2 H3 H4 H5]. unfold cb_push. rewrite wr_setN by lia. cbn [bind].
  eexists. split; [reflexivity|]. split; [|reflexivity].
  unfold cb_fall_back. rewrite !(add64_small _ 1) by lia.
  set (e' := if cb_end c + 1 =? cb_capacity c then 0 else cb_end c + 1).
  assert (E' : e' < cb_capacity c) by (unfold e'; destruct (N.eqb_spec (cb_end c + 1) (cb_capacity c)); lia).
  constructor; cbn [cb_capacity cb_begin cb_end cb_data].
  - exact H1.
  - rewrite lenN_setN. exact H2.
  - exact E'.
  - destruct (e' =? cb_begin c); [|exact H4].
    destruct (N.eqb_spec (cb_begin c + 1) (cb_capacity c)); lia.
  - intros i Hi Hl. rewrite nthN_setN by lia. rewrite lenN_cons in Hl.
    destruct (N.eq_dec i 0) as [->|Hz].
    + assert (C0 : cpos (cb_capacity c) e' 0 = cb_end c).
      { unfold cpos, e'. destruct (N.eqb_spec (cb_end c + 1) (cb_capacity c)); destruct (N.leb_spec (0 + 1) (cb_end c + 1)); cbn -[N.add N.sub]; try lia.
        destruct (N.leb_spec (0 + 1) 0); lia. }
      rewrite C0, N.eqb_refl, nthN_0. reflexivity.
    + assert (Ci : cpos (cb_capacity c) e' i = cpos (cb_capacity c) (cb_end c) (i - 1)).
      { unfold cpos, e'. destruct (N.eqb_spec (cb_end c + 1) (cb_capacity c));
        destruct (N.leb_spec (i - 1 + 1) (cb_end c)); try (destruct (N.leb_spec (i + 1) 0)); try destruct (N.leb_spec (i + 1) (cb_end c + 1)); lia. }
      rewrite Ci. rewrite nthN_S by lia. rewrite <- H5 by lia.
      destruct (N.eqb_spec (cpos (cb_capacity c) (cb_end c) (i - 1)) (cb_end c)) as [C|C]; [|reflexivity].
      exfalso. revert C. unfold cpos. destruct (N.leb_spec (i - 1 + 1) (cb_end c)); lia.
Qed.

Lemma cb_rbegin_pos c xs : cb_holds c xs -> cb_rbegin c = cpos (cb_capacity c) (cb_end c) 0.
Proof.
  intros [H1 H2 H3 H4 H5]. unfold cb_rbegin, ri_next, cpos.
  destruct (N.eqb_spec (cb_end c) 0); rewrite sub64_small by lia; destruct (N.leb_spec (0 + 1) (cb_end c)); lia.
Qed.
Lemma ri_next_pos c xs i : cb_holds c xs -> i + 1 < cb_capacity c ->
  ri_next c (cpos (cb_capacity c) (cb_end c) i) = cpos (cb_capacity c) (cb_end c) (i + 1).
Proof.
  intros [H1 H2 H3 H4 H5] Hi. unfold ri_next, cpos.
  destruct (N.leb_spec (i + 1) (cb_end c)); destruct (N.leb_spec (i + 1 + 1) (cb_end c)).
  - destruct (N.eqb_spec (cb_end c - 1 - i) 0); rewrite sub64_small by lia; lia.
  - destruct (N.eqb_spec (cb_end c - 1 - i) 0); rewrite sub64_small by lia; lia.
  - lia.
  - destruct (N.eqb_spec (cb_end c + cb_capacity c - 1 - i) 0); rewrite sub64_small by lia; lia.
Qed.
Lemma ri_deref_pos c xs i x : cb_holds c xs -> i < cb_capacity c -> nthN xs i = Some x ->
  ri_deref c (cpos (cb_capacity c) (cb_end c) i) = Ok x.
Proof.
  intros H Hi Hx. unfold ri_deref. apply (proj2 (rd_nthN _ _ _)).
  rewrite (ch_at _ _ H) by (auto; apply nthN_lt in Hx; exact Hx). exact Hx.
Qed.
End CB.
