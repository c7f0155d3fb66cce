(** * C33, continued: what back_to answers for the first word of any gram *)
From Verif Require Import Prelude BitFacts M_Text Spec P_Text.

Lemma back_run w : ~ In 32 w -> w <> [] -> forall pre post off spaces end_ fuel, (length w <= fuel)%nat -> lenN pre + lenN w < 2 ^ 64 ->
  back_to_loop fuel (pre ++ w ++ post) (lenN pre) off (lenN pre + lenN w - 1) spaces end_ = Ok (lenN pre + 1, end_).
Proof.
  induction w as [|c w IH] using rev_ind; intros Hn Hw pre post off spaces end_ fuel Hf HL; [congruence|].
  rewrite app_length in Hf. cbn [length] in Hf. rewrite lenN_app, lenN_cons, lenN_nil in *. destruct fuel as [|f]; [lia|]. cbn [back_to_loop].
  replace (lenN pre + (lenN w + (1 + 0)) - 1) with (lenN pre + lenN w) by lia. destruct (N.eqb_spec (lenN pre + lenN w) (lenN pre)) as [E|E].
  - rewrite E. unfold add64. rewrite w64_small by lia. reflexivity.
  - replace (pre ++ (w ++ [c]) ++ post) with ((pre ++ w) ++ c :: post) by (rewrite <- !app_assoc; reflexivity). rewrite rd_app_at' by (rewrite lenN_app; lia). cbn [bind].
    destruct (c =? c_space) eqn:E2. { apply N.eqb_eq in E2. exfalso. apply Hn. apply in_or_app. right. left. exact E2. }
    rewrite sub64_le by lia. replace ((pre ++ w) ++ c :: post) with (pre ++ w ++ c :: post) by (rewrite <- app_assoc; reflexivity).
    apply IH; [intros I; apply Hn, in_or_app; left; exact I|intros ->; rewrite lenN_nil in E; lia|lia|lia].
Qed.
Lemma back_words_first x : word x -> forall r pre post off spaces end_ fuel, r <> [] -> Forall word r ->
  lenN pre + lenN (join (x :: r)) < 2 ^ 64 -> (length (join (x :: r)) < fuel)%nat -> spaces + lenN r = off ->
  back_to_loop fuel (pre ++ join (x :: r) ++ post) (lenN pre) off (lenN pre + lenN (join (x :: r)) - 1) spaces end_ = Ok (lenN pre + 1, lenN pre + lenN x).
Proof.
  intros Hx r. induction r as [|w r IH] using rev_ind; intros pre post off spaces end_ fuel Hr HF Hlen Hf Hs; [congruence|].
  apply Forall_app in HF. destruct HF as [HF HFw]. apply Forall_cons_iff in HFw. destruct HFw as [Hw _]. rewrite lenN_app, lenN_cons, lenN_nil in Hs.
  change (x :: r ++ [w]) with ((x :: r) ++ [w]) in *. assert (Hj : 0 < lenN (join (x :: r))) by (apply join_nonempty; [discriminate|constructor; assumption]).
  rewrite join_snoc in * by discriminate. rewrite lenN_app, lenN_cons in *. rewrite app_length in Hf. cbn [length] in Hf.
  replace (pre ++ (join (x :: r) ++ 32 :: w) ++ post) with ((pre ++ join (x :: r)) ++ 32 :: w ++ post) by (rewrite <- !app_assoc; reflexivity).
  replace (lenN pre + (lenN (join (x :: r)) + (1 + lenN w)) - 1) with (lenN (pre ++ join (x :: r)) + lenN w) by (rewrite lenN_app; lia).
  rewrite back_word; [|apply Hw|lia|rewrite lenN_app; lia|rewrite lenN_app; lia].
  destruct (fuel - length w)%nat as [|f] eqn:Ef; [lia|].
  cbn [back_to_loop]. destruct (lenN (pre ++ join (x :: r)) =? lenN pre) eqn:E; [rewrite lenN_app in E; lia|].
  rewrite rd_app_at. cbn [bind]. change (32 =? c_space) with true. cbv iota.
  destruct (spaces + 1 =? off + 1) eqn:E2; [lia|]. rewrite sub64_le by (rewrite lenN_app; lia).
  destruct (list_eq_dec (list_eq_dec N.eq_dec) r []) as [->|Hrne].
  - change (join [x]) with x in *. rewrite lenN_nil in Hs. destruct (spaces + 1 =? off) eqn:E3; [|lia].
    replace ((pre ++ x) ++ 32 :: w ++ post) with (pre ++ x ++ (32 :: w ++ post)) by (rewrite <- !app_assoc; reflexivity). rewrite lenN_app.
    destruct Hx as (Hx1 & Hx2). apply back_run; [exact Hx2|exact Hx1|lia|lia].
  - assert (0 < lenN r) by (destruct r; [congruence|rewrite lenN_cons; lia]).
    destruct (spaces + 1 =? off) eqn:E3; [lia|].
    replace ((pre ++ join (x :: r)) ++ 32 :: w ++ post) with (pre ++ join (x :: r) ++ (32 :: w ++ post)) by (rewrite <- !app_assoc; reflexivity).
    replace (lenN (pre ++ join (x :: r)) - 1) with (lenN pre + lenN (join (x :: r)) - 1) by (rewrite lenN_app; lia).
    apply IH; try assumption; lia.
Qed.
(** Asked for the first of at least two words, back_to answers that word without its first byte, for every gram. *)
Theorem C33_back_to_first : forall buf q x r, lenN buf < 2 ^ 64 -> holds_text buf q (join (x :: r)) -> Forall word (x :: r) -> r <> [] ->
  exists p, back_to buf q (lenN r) = Ok p /\ holds_text buf p (tl x).
Proof.
  intros buf q x r Hb H HF Hr. apply Forall_cons_iff in HF. destruct HF as (Hx & HF). destruct (holds_split _ _ _ H) as (pre & post & -> & Ha & He).
  unfold back_to. rewrite Ha, He. assert (Hj : 0 < lenN (join (x :: r))) by (apply join_nonempty; [discriminate|constructor; assumption]).
  rewrite !lenN_app in Hb. rewrite sub64_le by lia. rewrite (back_words_first x Hx r); try assumption; try lia; [|rewrite !app_length; lia].
  eexists. split; [reflexivity|]. destruct Hx as (Hx & _). destruct x as [|c x]; [congruence|]. cbn [tl]. rewrite lenN_cons.
  destruct r as [|w r]; [congruence|]. change (join ((c :: x) :: w :: r)) with ((c :: x) ++ 32 :: join (w :: r)).
  replace (pre ++ ((c :: x) ++ 32 :: join (w :: r)) ++ post) with ((pre ++ [c]) ++ x ++ (32 :: join (w :: r) ++ post)) by (rewrite <- !app_assoc; cbn [app]; rewrite <- ?app_assoc; reflexivity).
  apply holds_mid; rewrite ?lenN_app, ?lenN_cons, ?lenN_nil; lia.
Qed.
(** "abc de f" *)
Example C33_back_to_first_case : let buf := [97; 98; 99; 32; 100; 101; 32; 102] in
  holds_text buf (0, 8) (join [[97; 98; 99]; [100; 101]; [102]]) /\ back_to buf (0, 8) 2 = Ok (1, 3).
Proof. split; [split; [split; vm_compute; discriminate|reflexivity]|vm_compute; reflexivity]. Qed.
Print Assumptions C33_back_to_first.
