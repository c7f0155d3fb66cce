(** * Properties C31-C34, C37-C39: header byte, lines, gram bytes, packing, search, checks, tokens *)
From Coq Require Import String.
From Verif Require Import Prelude BitFacts Spec M_Text M_Header P_Text P_Text2.
Ltac Zify.zify_post_hook ::= Z.to_euclidean_division_equations.

(** ** C31 *)
(** a configuration of the build tools *)
Inductive value_kind := Counts (ranks : N) | Probs.
Inductive config :=
| HashModel (key_bytes : N) (counts : bool)
| TrieModel (pef : bool) (remapping : N) (v : value_kind).
Definition supported (c : config) : Prop :=
  match c with
  | HashModel kb _ => kb = 4 \/ kb = 8
  | TrieModel _ r (Counts k) => r <= 2 /\ k <= 2
  | TrieModel _ r Probs => r <= 2
  end.
(** what build_hash.cpp 53-67 and build_trie.cpp 57-131 store in the header object *)
Definition header_of (c : config) : bheader :=
  match c with
  | HashModel kb counts => mkbh (Some 0) (Some (if counts then 0 else 1)) None (Some kb) None
  | TrieModel pef r (Counts k) => mkbh (Some (if pef then 2 else 1)) (Some 0) (Some r) None (Some k)
  | TrieModel pef r Probs => mkbh (Some (if pef then 2 else 1)) (Some 1) (Some r) None (Some 0)
  end.
Local Open Scope string_scope.
(** the name of the C++ type holding a configuration *)
Definition type_name (c : config) : string :=
  match c with
  | HashModel kb counts => "mph" ++ (if (kb =? 4)%N then "32" else "64") ++ (if counts then "_count_lm" else "_prob_lm")
  | TrieModel pef r v =>
      (if pef then "pef_" else "ef_") ++ (if (r =? 0)%N then "trie" else "rtrie") ++
      match v with
      | Counts k => "_" ++ (if (k =? 0)%N then "IC" else if (k =? 1)%N then "PSEF" else "PSPEF") ++ "_ranks_count_lm"
      | Probs => "_prob_lm"
      end
  end.
Local Close Scope string_scope.

Ltac small_N r H := (* r <= 2 -> cases *)
  let E := fresh in
  assert (E : r = 0 \/ r = 1 \/ r = 2) by lia; clear H; destruct E as [-> | [-> | ->]].
Ltac cases_of c H :=
  destruct c as [kb counts | pef r [k |]]; cbn [supported] in H;
  [ destruct H as [-> | ->]; destruct counts
  | destruct H as [?H1 ?H2]; small_N r H1; small_N k H2; destruct pef
  | small_N r H; destruct pef ].

Theorem C31_roundtrip : forall c, supported c ->
  exists b, bh_get (header_of c) = Ok b /\ b < 256 /\ bh_parse b = type_name c /\ In (type_name c) model_types.
Proof.
  intros c H. cases_of c H; (eexists; split; [vm_compute; reflexivity|]; split; [reflexivity|]; split;
    [vm_compute; reflexivity|]; vm_compute; repeat (first [left; reflexivity | right])).
Qed.
Theorem C31_injective : forall c d b, supported c -> supported d ->
  bh_get (header_of c) = Ok b -> bh_get (header_of d) = Ok b -> c = d.
Proof.
  intros c d b Hc Hd. cases_of c Hc; intros E; vm_compute in E; injection E as <-;
    cases_of d Hd; intros E; vm_compute in E; congruence.
Qed.
(** an unset field is reported, not written as a wrong byte *)
Theorem C31_unset_field_throws : forall b,
  (bh_ds b = None \/ bh_value b = None \/ (exists d, bh_ds b = Some d /\ d <> 0 /\ bh_remap b = None) \/
   (bh_ds b = Some 0 /\ bh_key b = None) \/
   (exists d, bh_ds b = Some d /\ d <> 0 /\ bh_value b = Some 0 /\ bh_ranks b = None)) -> bh_get b = Throw.
Proof.
  intros [ds vt ro kb rk]. cbn. intros H. unfold bh_get. cbn [bh_ds bh_value bh_remap bh_key bh_ranks].
  destruct H as [-> | [-> | [(d & -> & Hd & ->) | [[-> ->] | (d & -> & Hd & -> & ->)]]]].
  - reflexivity.
  - destruct ds; reflexivity.
  - cbn [bh_check bind]. destruct vt; [|reflexivity]. cbn [bind]. destruct (d =? 0) eqn:E; [lia|]. reflexivity.
  - cbn [bh_check bind]. destruct vt; reflexivity.
  - cbn [bh_check bind]. destruct (d =? 0) eqn:E; [lia|]. destruct ro; reflexivity.
Qed.
Example C31_example : bh_get (header_of (TrieModel true 2 (Counts 1))) = Ok 50 /\
  bh_parse 50 = "pef_rtrie_PSEF_ranks_count_lm"%string.
Proof. split; reflexivity. Qed.

(** ** C32 *)
Theorem C32_roundtrip : forall gram count, ~ In 9 gram -> count < 2 ^ 64 ->
  exists r, parse_count_line (format_count_line gram count) = Ok (r, count) /\
            holds_text (format_count_line gram count) r gram.
Proof.
  intros gram count Hg Hc. exists (0, lenN gram). split; [apply parse_format; assumption|].
  unfold format_count_line. apply (holds_mid [] gram ([c_tab] ++ to_string count)); reflexivity.
Qed.
(** a line without a tab is a gram with count 0 *)
Theorem C32_no_count : forall gram, ~ In 9 gram ->
  exists r, parse_count_line gram = Ok (r, 0) /\ holds_text gram r gram.
Proof.
  intros gram Hg. exists (0, lenN gram). split; [apply parse_no_tab; assumption|].
  pose proof (holds_mid [] gram [] 0 (lenN gram)) as H. cbn [app] in H. rewrite app_nil_r in H. apply H; reflexivity.
Qed.
(** the written count is the decimal numeral of the count *)
Theorem C32_decimal : forall n, n < 2 ^ 64 -> dec_value (to_string n) = n /\ Forall (fun c => 48 <= c <= 57) (to_string n).
Proof.
  intros n Hn. destruct (to_string_ok n Hn) as (H1 & _ & H3). split; [exact H1|].
  eapply Forall_impl; [|exact H3]. cbn. unfold is_digit. lia.
Qed.
Example C32_example : parse_count_line (format_count_line [97; 32; 98] 18446744073709551615) = Ok ((0, 3), 18446744073709551615).
Proof. vm_compute. reflexivity. Qed.
(** a count is also found when the line was saved with a count too large: strtoull saturates *)
Example C32_saturates : parse_count_line ([97; 9] ++ [49;56;52;52;54;55;52;52;48;55;51;55;48;57;53;53;49;54;49;55]) = Ok ((0, 1), 2 ^ 64 - 1).
Proof. vm_compute. reflexivity. Qed.

(** ** C33: [buf] is the whole memory block, [r] the range of the gram inside it *)
Theorem C33_predecessor : forall buf r xs w, lenN buf < 2 ^ 64 ->
  holds_text buf r (join (xs ++ [w])) -> xs <> [] -> Forall word (xs ++ [w]) ->
  exists p, predecessor buf r = Ok (fst r, p) /\
    holds_text buf (fst r, p) (join xs) /\ holds_text buf (p + 1, snd r) w.
Proof.
  intros buf r xs w Hb H Hx HF. apply Forall_app in HF. destruct HF as [_ HF]. inversion_clear HF as [|? ? [_ Hw] _].
  apply predecessor_ok; assumption.
Qed.
Theorem C33_suffix : forall buf r w xs, holds_text buf r (join (w :: xs)) -> xs <> [] -> Forall word (w :: xs) ->
  exists p, suffix buf r = Ok (p, snd r) /\ holds_text buf (p, snd r) (join xs).
Proof. intros buf r w xs H Hx HF. inversion_clear HF as [|? ? [_ Hw] _]. apply (suffix_ok buf r w xs); assumption. Qed.
(** to(k): the k-th word counting from 0 *)
Theorem C33_to : forall buf r l x rs, holds_text buf r (join (l ++ x :: rs)) -> Forall word (l ++ x :: rs) ->
  exists q, to buf r (lenN l) = Ok q /\ holds_text buf q x.
Proof.
  intros buf r l x rs H HF. apply (to_ok buf r l x rs); [exact H|]. eapply Forall_impl; [|exact HF]. intros w [_ Hw]. exact Hw.
Qed.
(** back_to(k): the word followed by k words, provided it is not the first one and k > 0.
    For the first word the documented result back_to(X Y Z W, 3) = X fails, see below. *)
Theorem C33_back_to_partial : forall buf q l x r, lenN buf < 2 ^ 64 ->
  holds_text buf q (join (l ++ x :: r)) -> Forall word (l ++ x :: r) -> l <> [] -> r <> [] ->
  exists p, back_to buf q (lenN r) = Ok p /\ holds_text buf p x.
Proof. exact back_to_ok. Qed.
(** "ab c d e": back_to(.., 3) yields "b", not "ab" *)
Theorem C33_back_to_first_refuted :
  ~ (forall buf q x r, lenN buf < 2 ^ 64 -> holds_text buf q (join (x :: r)) -> Forall word (x :: r) -> r <> [] ->
       exists p, back_to buf q (lenN r) = Ok p /\ holds_text buf p x).
Proof.
  intros H.
  destruct (H [97; 98; 32; 99; 32; 100; 32; 101] (0, 8) [97; 98] [[99]; [100]; [101]]) as (p & E & [_ T]).
  - reflexivity.
  - split; [split; vm_compute; discriminate | reflexivity].
  - repeat (constructor; [split; [discriminate | cbn; intros [|]; intuition discriminate]|]). constructor.
  - discriminate.
  - vm_compute in E. injection E as <-. vm_compute in T. discriminate.
Qed.
(** next / prev, for a neighbour that is itself delimited by spaces *)
Theorem C33_next : forall pre x y post, word y ->
  let buf := pre ++ x ++ 32 :: y ++ 32 :: post in
  exists q, next buf (lenN pre, lenN pre + lenN x) = Ok q /\ holds_text buf q y.
Proof. intros pre x y post [_ Hy] buf. apply (next_ok _ _ pre x y post); [reflexivity | reflexivity | exact Hy]. Qed.
Theorem C33_prev : forall pre x y post, word y ->
  let buf := pre ++ 32 :: y ++ 32 :: x ++ post in lenN buf < 2 ^ 64 ->
  exists q, prev buf (lenN pre + lenN y + 2, lenN pre + lenN y + 2 + lenN x) = Ok q /\ holds_text buf q y.
Proof. intros pre x y post [H0 Hy] buf Hb. apply (prev_ok _ _ pre x y post); [exact Hb | reflexivity | exact Hy | exact H0 | reflexivity]. Qed.
(** next() past the last word of a gram runs over the end of the memory block *)
Theorem C33_next_last_refuted :
  ~ (forall pre x y, word x -> word y -> exists q, next (pre ++ x ++ 32 :: y) (lenN pre, lenN pre + lenN x) = Ok q).
Proof.
  intros H. destruct (H [] [97] [98]) as (q & E).
  - split; [discriminate | cbn; intros [|]; intuition discriminate].
  - split; [discriminate | cbn; intros [|]; intuition discriminate].
  - vm_compute in E. discriminate.
Qed.
Theorem C33_equal_bytes : forall bx by_ r q x y, lenN bx < 2 ^ 64 -> lenN by_ < 2 ^ 64 ->
  holds_text bx r x -> holds_text by_ q y -> (equal_bytes bx by_ r q = Ok true <-> x = y) /\
  (equal_bytes bx by_ r q = Ok false <-> x <> y).
Proof.
  intros bx by_ r q x y H1 H2 H3 H4. rewrite (equal_bytes_ok bx by_ r q x y H1 H2 H3 H4).
  destruct (list_eq_dec N.eq_dec x y); split; split; congruence.
Qed.
Example C33_example : let buf := [120; 32; 97; 98; 32; 99; 32; 100; 9; 49] in (* "x ab c d\t1" *)
  predecessor buf (0, 8) = Ok (0, 6) /\ suffix buf (0, 8) = Ok (2, 8) /\
  back_to buf (0, 8) 2 = Ok (2, 4) /\ to buf (0, 8) 2 = Ok (5, 6) /\
  next buf (2, 4) = Ok (5, 6) /\ prev buf (5, 6) = Ok (2, 4).
Proof. vm_compute. repeat split. Qed.

(** ** C34 (float values are their 32-bit patterns) *)
Theorem C34_pack : forall prob backoff, prob < 2 ^ 32 -> backoff < 2 ^ 32 ->
  unpack (pack prob backoff) = (prob, backoff) /\ pack prob backoff < 2 ^ 64.
Proof. intros p b Hp Hb. split; [apply unpack_pack | apply pack_lt]; assumption. Qed.
Example C34_example : pack 0xbf800000 0xc2c80000 = 0xc2c80000bf800000 /\ unpack 0xc2c80000bf800000 = (0xbf800000, 0xc2c80000).
Proof. vm_compute. split; reflexivity. Qed.

(** ** C37 *)
(** pairs sorted by strictly increasing first component *)
Definition sorted_pairs (s : list (N * N)) : Prop :=
  forall i j a b, i < j -> nthN s i = Some a -> nthN s j = Some b -> fst a < fst b.
(** the full claim, for every x, fails below the smallest element and on an empty sequence *)
Theorem C37_found_partial : forall s x, lenN s < 2 ^ 63 -> sorted_pairs s ->
  (exists a, nthN s 0 = Some a /\ fst a <= x) ->
  (forall v, In (x, v) s -> binary_search s (lenN s) x = Ok (Some v)) /\
  (~ In x (map fst s) -> binary_search s (lenN s) x = Ok None).
Proof.
  intros s x HL Hs H0. destruct (binary_search_ok s x HL Hs H0) as (r & E & Hr).
  rewrite E. split.
  - intros v Hv. destruct r as [u|].
    + f_equal. f_equal. cbn in Hr.
      apply In_nth_error in Hv. destruct Hv as [i Hi]. apply In_nth_error in Hr. destruct Hr as [j Hj].
      assert (Ni : nthN s (N.of_nat i) = Some (x, v)) by (unfold nthN; rewrite Nat2N.id; exact Hi).
      assert (Nj : nthN s (N.of_nat j) = Some (x, u)) by (unfold nthN; rewrite Nat2N.id; exact Hj).
      destruct (N.lt_trichotomy (N.of_nat i) (N.of_nat j)) as [H|[H|H]].
      * pose proof (Hs _ _ _ _ H Ni Nj). cbn in *. lia.
      * rewrite H in Ni. congruence.
      * pose proof (Hs _ _ _ _ H Nj Ni). cbn in *. lia.
    + exfalso. apply Hr. apply in_map_iff. exists (x, v). split; [reflexivity|assumption].
  - intros Hn. destruct r as [u|]; [|reflexivity]. exfalso. apply Hn. apply in_map_iff. exists (x, u). split; [reflexivity|exact Hr].
Qed.
Lemma bsearch_wrapped s x : lenN s < 2 ^ 63 -> forall fuel, bsearch fuel s x 0 (2 ^ 64 - 1) = UB.
Proof.
  intros L [|fuel]; [reflexivity|]. cbn [bsearch]. change (0 <=? 2 ^ 64 - 1) with true. cbv iota zeta. change (add64 0 (shr (sub64 (2 ^ 64 - 1) 0) 1)) with (2 ^ 63 - 1).
  unfold rd. destruct (nth_error s (N.to_nat (2 ^ 63 - 1))) as [y|] eqn:E; [|destruct (2 ^ 63 - 1 <? lenN s); reflexivity].
  destruct (N.ltb_spec (2 ^ 63 - 1) (lenN s)); [lia|reflexivity].
Qed.
Lemma bsearch_below s x : lenN s < 2 ^ 63 -> (forall i a, nthN s i = Some a -> x < fst a) ->
  forall fuel hi, hi < lenN s -> bsearch fuel s x 0 hi = UB.
Proof.
  intros L B. induction fuel as [|fuel IH]; intros hi H; [reflexivity|]. cbn [bsearch]. destruct (N.leb_spec 0 hi); [|lia]. cbv zeta.
  rewrite sub64_le by lia. rewrite N.sub_0_r. assert (M : shr hi 1 <= hi) by (unfold shr; rewrite N.shiftr_div_pow2; change (2 ^ 1) with 2; apply N.div_le_upper_bound; lia).
  rewrite add64_le by lia. rewrite N.add_0_l. set (mid := shr hi 1) in *. destruct (nthN_Some s mid ltac:(lia)) as [[v r] Hv]. rewrite (proj2 (rd_nthN _ _ _) Hv). cbn [bind].
  pose proof (B _ _ Hv) as V. cbn [fst] in V. destruct (N.eqb_spec v x); [lia|]. destruct (N.ltb_spec x v); [|lia].
  destruct (N.eq_dec mid 0) as [-> | NZ]; [change (sub64 0 1) with (2 ^ 64 - 1); apply bsearch_wrapped; exact L|]. rewrite sub64_le by lia. apply IH. lia.
Qed.
(** every search below the smallest element reads outside the sequence *)
Theorem C37_below_minimum_refuted : forall s x, lenN s < 2 ^ 63 -> sorted_pairs s ->
  (exists a, nthN s 0 = Some a /\ x < fst a) -> binary_search s (lenN s) x = UB.
Proof.
  intros s x L Hs (a & Ha & Hx). pose proof (nthN_lt _ _ _ Ha) as P. unfold binary_search. rewrite sub64_le by lia. apply bsearch_below; [exact L| |lia].
  intros i b Hb. destruct (N.eq_dec i 0) as [->|NZ]; [rewrite Ha in Hb; injection Hb as <-; exact Hx|]. pose proof (Hs 0 i a b ltac:(lia) Ha Hb). lia.
Qed.
Example C37_below_case : binary_search [(5, 0); (7, 1)] 2 3 = UB.
Proof. vm_compute. reflexivity. Qed.
(** and so does every search in an empty one *)
Theorem C37_empty_refuted : forall x, binary_search [] 0 x = UB.
Proof. intros x. unfold binary_search. change (sub64 0 1) with (2 ^ 64 - 1). apply bsearch_wrapped. reflexivity. Qed.
Example C37_example : binary_search [(2, 3); (5, 0); (9, 2); (11, 1)] 4 9 = Ok (Some 2) /\
  binary_search [(2, 3); (5, 0); (9, 2); (11, 1)] 4 10 = Ok None.
Proof. vm_compute. split; reflexivity. Qed.

(** ** C38: what the tools do with the number given by the user *)
(** for arguments below 256 the checks are exact *)
Theorem C38_order_partial : forall o, o < 256 ->
  (accepted_order o = Ok o <-> 2 <= o <= 8) /\ (accepted_order o = Throw <-> ~ 2 <= o <= 8).
Proof.
  intros o Ho. unfold accepted_order, check_order.
  assert (E : u8 o = o) by (unfold u8; change 255 with (N.ones 8); rewrite N.land_ones; apply N.mod_small; exact Ho).
  rewrite E. destruct (N.ltb_spec o 2), (N.ltb_spec 8 o); cbn [bind]; split; split; intros; try discriminate; try reflexivity; lia.
Qed.
Theorem C38_remapping_partial : forall o, o < 256 ->
  (accepted_remapping o = Ok o <-> o <= 2) /\ (accepted_remapping o = Throw <-> 2 < o).
Proof.
  intros o Ho. unfold accepted_remapping, check_remapping_order.
  assert (E : u8 o = o) by (unfold u8; change 255 with (N.ones 8); rewrite N.land_ones; apply N.mod_small; exact Ho).
  rewrite E. destruct (N.ltb_spec 2 o); cbn [bind]; split; split; intros; try discriminate; try reflexivity; lia.
Qed.
(** for every argument: it is taken modulo 256 *)
Theorem C38_order_any : forall o, accepted_order o = if (2 <=? o mod 256) && (o mod 256 <=? 8) then Ok (o mod 256) else Throw.
Proof.
  intros o. unfold accepted_order, check_order. assert (E : u8 o = o mod 256) by (unfold u8; change 255 with (N.ones 8); apply N.land_ones). rewrite E.
  destruct (N.ltb_spec (o mod 256) 2), (N.leb_spec 2 (o mod 256)); try lia; [reflexivity|].
  destruct (N.ltb_spec 8 (o mod 256)), (N.leb_spec (o mod 256) 8); try lia; reflexivity.
Qed.
Theorem C38_remapping_any : forall o, accepted_remapping o = if o mod 256 <=? 2 then Ok (o mod 256) else Throw.
Proof.
  intros o. unfold accepted_remapping, check_remapping_order. assert (E : u8 o = o mod 256) by (unfold u8; change 255 with (N.ones 8); apply N.land_ones). rewrite E.
  destruct (N.ltb_spec 2 (o mod 256)), (N.leb_spec (o mod 256) 2); try lia; reflexivity.
Qed.
(** order 258 is accepted and silently builds a model of order 2 *)
Theorem C38_order_258_refuted : ~ (forall o, ~ 2 <= o <= 8 -> accepted_order o = Throw) /\ accepted_order 258 = Ok 2.
Proof. split; [|reflexivity]. intros H. specialize (H 258 ltac:(lia)). vm_compute in H. discriminate. Qed.
(** <unk> log-probabilities: every negative value is accepted, every non-negative one rejected *)
Theorem C38_unk : forall b, b < 2 ^ 32 -> f32_nan b = false ->
  (check_unk_logprob b = Ok tt <-> N.testbit b 31 = true /\ N.land b (N.ones 31) <> 0) /\
  (check_unk_logprob b = Throw <-> N.testbit b 31 = false \/ N.land b (N.ones 31) = 0).
Proof.
  intros b Hb Hn. unfold check_unk_logprob, f32_ge0. rewrite Hn. cbn [negb andb].
  destruct (N.testbit b 31); cbn [negb orb];
    (destruct (N.land b (N.ones 31) =? 0) eqn:E; [apply N.eqb_eq in E | apply N.eqb_neq in E]);
    (split; split; intros H; try reflexivity; try discriminate; intuition congruence).
Qed.
(** but a NaN passes the check *)
Theorem C38_unk_nan_refuted : forall b, f32_nan b = true -> check_unk_logprob b = Ok tt.
Proof. intros b H. unfold check_unk_logprob, f32_ge0. rewrite H. reflexivity. Qed.
Example C38_nan_case : f32_nan 0x7fc00000 = true.
Proof. reflexivity. Qed.

(** ** C39 *)
(** forward iterator over a text of words separated by single spaces, inside any memory block *)
Theorem C39_forward : forall pre ws post, Forall word ws -> Forall (fun w => ~ In 10 w) ws ->
  let buf := pre ++ join ws ++ post in
  exists brs, fwd_all (length buf + 2) buf (lenN pre, lenN pre + lenN (join ws)) = Ok brs /\
    Forall2 (holds_text buf) brs ws.
Proof.
  intros pre ws post HF HN buf. apply fwd_all_join.
  - apply Forall_forall. intros w Hw. split; [apply (proj1 (Forall_forall _ _) HF w Hw) | apply (proj1 (Forall_forall _ _) HN w Hw)].
  - unfold buf. rewrite !app_length. lia.
  - destruct ws as [|w ws] using rev_ind; [left; reflexivity|right]. rewrite last_last.
    apply Forall_app in HF. destruct HF as [_ HF]. inversion_clear HF as [|? ? [Hw _] _]. exact Hw.
Qed.
(** double spaces produce an empty token, so the tokens are not the maximal runs of non-space bytes *)
Theorem C39_double_space_refuted :
  fwd_all 10 [97; 32; 32; 98] (0, 4) = Ok [(0, 1); (2, 2); (3, 4)].
Proof. vm_compute. reflexivity. Qed.
(** backward iterator: the words from the last to the first *)
Theorem C39_backward : forall pre ws post, Forall word ws -> lenN (pre ++ join ws ++ post) < 2 ^ 64 ->
  let buf := pre ++ join ws ++ post in
  exists brs, bwd_take (length ws) buf (lenN pre, lenN pre + lenN (join ws)) = Ok brs /\
    Forall2 (holds_text buf) brs (rev ws).
Proof.
  intros pre ws post HF Hb buf. apply bwd_take_join; [assumption|]. rewrite !lenN_app in Hb. lia.
Qed.
(** corpus reader with the loops of score.cpp: each line's words, and the number of words.  Words may be empty. *)
Theorem C39_corpus : forall lines, Forall (fun ws => ws <> [] /\ Forall (fun w => ~ In 32 w /\ ~ In 10 w) ws) lines ->
  let buf := concat (map (fun ws => join ws ++ [10]) lines) in
  exists brss t, tl_corpus (S (length lines)) buf tl_init = Ok (brss, t) /\
    tl_words t = lenN (concat lines) /\ Forall2 (Forall2 (holds_text buf)) brss lines.
Proof.
  intros lines HF buf.
  destruct (tl_corpus_ok lines) with (pre := @nil N) (n := 0) (eol := false) (fuel := S (length lines)) as (brss & t & H1 & H2 & H3).
  - exact HF.
  - lia.
  - exists brss, t. split; [exact H1|]. split; [exact H2|exact H3].
Qed.
(** every text that is empty or ends with a newline is of this form, in one way only *)
Lemma text_lines_exist : forall data, exists lines ws, data = concat (map (fun ws => join ws ++ [10]) lines) ++ join ws /\
  Forall (fun ws => ws <> [] /\ Forall (fun w => ~ In 32 w /\ ~ In 10 w) ws) lines /\ ws <> [] /\ Forall (fun w => ~ In 32 w /\ ~ In 10 w) ws.
Proof.
  induction data as [|c data (lines & ws & E & HL & NE & HW)] using rev_ind.
  - exists [], [[]]. split; [reflexivity|]. split; [constructor|]. split; [discriminate|]. constructor; [split; intros []|constructor].
  - destruct (N.eq_dec c 10) as [->|N1]; [|destruct (N.eq_dec c 32) as [->|N2]].
    + exists (lines ++ [ws]), [[]]. split; [|split; [|split; [discriminate|constructor; [split; intros []|constructor]]]].
      * rewrite E, map_app, concat_app. cbn [map concat join]. rewrite !app_nil_r, <- !app_assoc. reflexivity.
      * apply Forall_app. split; [exact HL|]. constructor; [split; assumption|constructor].
    + exists lines, (ws ++ [[]]). split; [|split; [exact HL|split; [destruct ws; discriminate|]]].
      * rewrite E, (join_app ws [[]]) by (assumption || discriminate). cbn [join]. rewrite <- !app_assoc. reflexivity.
      * apply Forall_app. split; [exact HW|]. constructor; [split; intros []|constructor].
    + destruct (exists_last NE) as (xs & w & ->). exists lines, (xs ++ [w ++ [c]]). apply Forall_app in HW. destruct HW as [HX HW]. inversion_clear HW as [|? ? [W1 W2] _].
      split; [|split; [exact HL|split; [destruct xs; discriminate|]]].
      * rewrite E, <- app_assoc. f_equal. destruct xs as [|x xs]; [reflexivity|].
        rewrite (join_app (x :: xs) [w]), (join_app (x :: xs) [w ++ [c]]) by discriminate. cbn [join]. rewrite <- !app_assoc. reflexivity.
      * apply Forall_app. split; [exact HX|]. constructor; [|constructor]. split; intros I; apply in_app_or in I; destruct I as [I|[I|[]]]; [exact (W1 I)|congruence|exact (W2 I)|congruence].
Qed.
Theorem C39_any_text : forall data, data = [] \/ last data 0 = 10 ->
  exists! lines, Forall (fun ws => ws <> [] /\ Forall (fun w => ~ In 32 w /\ ~ In 10 w) ws) lines /\ data = concat (map (fun ws => join ws ++ [10]) lines).
Proof.
  intros data HD.
  assert (EX : exists lines, Forall (fun ws => ws <> [] /\ Forall (fun w => ~ In 32 w /\ ~ In 10 w) ws) lines /\ data = concat (map (fun ws => join ws ++ [10]) lines)).
  { destruct HD as [->|HD]; [exists []; split; [constructor|reflexivity]|]. destruct data as [|c data] using rev_ind; [exists []; split; [constructor|reflexivity]|].
    rewrite last_last in HD. subst c. destruct (text_lines_exist data) as (lines & ws & E & HL & NE & HW). exists (lines ++ [ws]). split.
    - apply Forall_app. split; [exact HL|]. constructor; [split; assumption|constructor].
    - rewrite E, map_app, concat_app. cbn [map concat]. rewrite app_nil_r, <- app_assoc. reflexivity. }
  destruct EX as (lines & HL & E). exists lines. split; [split; assumption|]. intros lines2 [HL2 E2].
  set (fuel := S (length lines + length lines2)).
  destruct (tl_corpus_ok lines HL [] 0 false fuel ltac:(unfold fuel; lia)) as (b1 & t1 & R1 & _ & F1). destruct (tl_corpus_ok lines2 HL2 [] 0 false fuel ltac:(unfold fuel; lia)) as (b2 & t2 & R2 & _ & F2).
  fold (corpus_text lines) in E. fold (corpus_text lines2) in E2. cbn [app] in R1, R2, F1, F2. rewrite <- E in R1, F1. rewrite <- E2 in R2, F2. change (lenN (@nil N)) with 0 in R1, R2. rewrite R1 in R2. injection R2 as -> _.
  assert (D1 : forall l1 l2 b, Forall2 (holds_text data) b l1 -> Forall2 (holds_text data) b l2 -> l1 = l2).
  { clear. induction l1 as [|x l1 IH]; intros l2 b A B; inversion A; subst; inversion B; subst; [reflexivity|]. f_equal; [|eapply IH; eassumption].
    match goal with H1 : holds_text _ ?r x, H2 : holds_text _ ?r _ |- _ => destruct H1 as [_ <-]; destruct H2 as [_ <-]; reflexivity end. }
  clear - F1 F2 D1. revert b2 lines2 F1 F2. induction lines as [|x l IH]; intros b l2 A B; inversion A; subst; inversion B; subst; [reflexivity|]. f_equal; [eapply D1; eassumption|eapply IH; eassumption].
Qed.
(** without a newline at the end of the file the reader runs past the mapped memory *)
Theorem C39_no_final_newline_refuted : tl_corpus 10 [97; 32; 98] tl_init = UB.
Proof. vm_compute. reflexivity. Qed.
Example C39_example : tl_corpus 10 [97; 32; 98; 99; 10; 100; 10] tl_init
  = Ok ([[(0, 1); (2, 4)]; [(5, 6)]], mktl 7 3 true).
Proof. vm_compute. reflexivity. Qed.

Print Assumptions C31_roundtrip.
Print Assumptions C31_injective.
Print Assumptions C32_roundtrip.
Print Assumptions C33_predecessor.
Print Assumptions C33_back_to_partial.
Print Assumptions C33_prev.
Print Assumptions C34_pack.
Print Assumptions C37_found_partial.
Print Assumptions C37_below_minimum_refuted.
Print Assumptions C37_empty_refuted.
Print Assumptions C38_order_any.
Print Assumptions C38_remapping_any.
Print Assumptions C38_unk_nan_refuted.
Print Assumptions C38_unk.
Print Assumptions C39_forward.
Print Assumptions C39_backward.
Print Assumptions C39_corpus.
Print Assumptions C39_any_text.
