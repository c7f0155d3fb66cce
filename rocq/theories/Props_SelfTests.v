(** * C54: the project's own randomised checks accept every sequence of draws

    test/test_*.cpp draw random data, build a structure and compare every value read back with the value put in.  A run tells about one
    sequence of draws; the theorems are about all of them. *)
From Verif Require Import Prelude BitFacts M_Word M_Bits M_CompactVector M_HashVec M_DArray M_EF M_Mph M_FastEF M_Pef M_Save M_SelfTests Spec P_FastEF P_FastEF2 P_FastEF3 P_SelfTests1 P_SelfTests2 P_SelfTests3.

(** ** test_compact_vector: every number of values, every width *)
Theorem C54_compact_vector : forall n w draw,
  0 < n -> 1 <= w <= 64 -> n * w + 64 < 2 ^ 64 ->
  (forall k, draw k <= 2 ^ (w - 1)) ->
  test_compact_vector n w draw = Ok 0.
Proof. exact test_compact_vector_ok. Qed.

(** ** test_hash_compact_vector: both key sizes, every width (it sets in increasing order, C05_in_order) *)
Theorem C54_hash_compact_vector : forall n hash_width w draw,
  0 < n -> hash_width = 32 \/ hash_width = 64 -> 1 <= w <= 64 ->
  n * (hash_width + w) <= 2 ^ hash_width -> n * (hash_width + w) < 2 ^ 64 ->
  (forall k, draw k <= 2 ^ (w - 1)) ->
  test_hash_compact_vector n hash_width w draw = Ok 0.
Proof.
  intros n hw w draw Hn HB HW H1 H2 HD. unfold test_hash_compact_vector. destruct (N.eqb_spec n 0) as [X|_]; [lia|].
  destruct HB as [-> | ->]; cbn [N.eqb Pos.eqb]; apply perf_test_ok; auto.
Qed.

(** ** test_fast_ef_sequence; [order] has to be an order in which the hash construction can place the long ranges (C19) *)
Theorem C54_fast_ef : forall h order n max_range_len range_draw value_draw,
  0 < n < 2 ^ 56 -> 0 < max_range_len <= n ->
  (forall k, 1 <= range_draw k <= max_range_len) ->
  (forall k, 1 <= value_draw k <= 50) ->
  (forall ptrs, cut_pointers range_draw n = Ok ptrs ->
     long_starts 128 ptrs = [] \/ valid_order (hash_domain (lenN (long_starts 128 ptrs))) h (long_starts 128 ptrs) (order ptrs)) ->
  test_fast_ef h order n max_range_len range_draw value_draw = Ok 0.
Proof. intros. apply test_fast_ef_ok; assumption. Qed.
Lemma cut_short draw n mx : n + mx < 2 ^ 64 -> mx < 128 -> (forall k, 1 <= draw k <= mx) -> forall fuel k offset os,
  cut fuel draw k offset n = Ok os -> offset <= n -> long_starts 128 (offset :: os) = [].
Proof.
  intros HN HS HD. induction fuel as [|fuel IH]; intros k offset os E L; cbn [cut] in E; destruct (N.ltb_spec offset n) as [X|X]; try discriminate; try (injection E as <-; reflexivity).
  pose proof (HD k) as D. rewrite add64_small in E by lia. cbv zeta in E. set (o := if n <? offset + draw k then n else offset + draw k) in E.
  assert (HO : offset < o <= n /\ o - offset < 128) by (unfold o; destruct (N.ltb_spec n (offset + draw k)); lia).
  destruct (cut fuel draw (k + 1) o n) as [os'| |] eqn:EC; cbn [bind] in E; try discriminate. injection E as <-.
  specialize (IH (k + 1) o os' EC ltac:(lia)). unfold long_starts in *. cbn [combine tl] in *.
  cbn [filter fst snd]. destruct (N.leb_spec 128 (o - offset)); [lia|]. exact IH.
Qed.
(** no hash function is involved when no range can be long *)
Theorem C54_fast_ef_short : forall h order n max_range_len range_draw value_draw,
  0 < n < 2 ^ 56 -> 0 < max_range_len <= n -> max_range_len < 128 ->
  (forall k, 1 <= range_draw k <= max_range_len) ->
  (forall k, 1 <= value_draw k <= 50) ->
  test_fast_ef h order n max_range_len range_draw value_draw = Ok 0.
Proof.
  intros h order n mx rd vd Hn Hm HS HR HV. apply test_fast_ef_ok; try assumption. intros ptrs E. unfold cut_pointers in E.
  destruct (cut (N.to_nat n) rd 0 0 n) as [os| |] eqn:EC; cbn [bind] in E; try discriminate. injection E as <-. left.
  apply (cut_short rd n mx ltac:(lia) HS HR (N.to_nat n) 0 0 os EC). lia.
Qed.

(** ** test_uniform_pef_sequence, with more values than one partition holds *)
Theorem C54_uniform_pef_partial : forall x0 x1 y0 y1 n max_range_len draw range_draw value_draw,
  x0 < 2 ^ 64 -> x1 < 2 ^ 64 -> y0 < 2 ^ 64 -> y1 < 2 ^ 64 ->
  64 < n < 2 ^ 40 -> 0 < max_range_len -> n + max_range_len < 2 ^ 64 ->
  (forall k, draw k <= 100) ->
  (forall k, 1 <= range_draw k <= max_range_len) ->
  (forall k, 1 <= value_draw k <= 50) ->
  test_uniform_pef (mkpads [x0] [x1]) (mkpads [y0] [y1]) n max_range_len draw range_draw value_draw = Ok 0.
Proof. exact test_uniform_pef_ok. Qed.

(** With at most 64 values the program can abort: three values in ranges of two and one (find starts from where the last operator[]
    left the enumerator, at a value that happens to be the one looked for). *)
Definition few_ranges (k : N) : N := if k =? 0 then 2 else 1.
Theorem C54_uniform_pef_refuted :
  (forall k, 1 <= few_ranges k <= 2) /\
  test_uniform_pef (mkpads [0] [0]) (mkpads [0] [0]) 3 2 (fun _ => 9) few_ranges (fun _ => 9) = Throw.
Proof. split; [intros k; unfold few_ranges; destruct (k =? 0); lia|vm_compute; reflexivity]. Qed.

(** With a maximal range length near 2^64 the offsets wrap and the data is no longer cut into ranges: 0, 5, 4, 10. *)
Definition wide_ranges (k : N) : N := if k =? 0 then 5 else if k =? 1 then 2 ^ 64 - 1 else 6.
Theorem C54_wide_ranges_refuted :
  (forall k, 1 <= wide_ranges k <= 2 ^ 64 - 1) /\ cut_pointers wide_ranges 10 = Ok [0; 5; 4; 10].
Proof. split; [intros k; unfold wide_ranges; destruct (k =? 0), (k =? 1); lia|vm_compute; reflexivity]. Qed.

(** the programs reject a wrong structure: a checked value that differs ends the run *)
Theorem C54_check : forall got expected, check got expected = Ok tt <-> got = expected.
Proof. intros. unfold check. destruct (N.eqb_spec got expected); split; congruence. Qed.

(** ** concrete cases *)
Definition mixed (k : N) : N := k mod 5 + 1.
Example C54_compact_vector_case : test_compact_vector 7 13 (fun k => (k * 577) mod 4097) = Ok 0.
Proof. vm_compute. reflexivity. Qed.
Example C54_hash_case : test_hash_compact_vector 5 32 16 (fun k => (k * 577) mod 4097) = Ok 0.
Proof. vm_compute. reflexivity. Qed.
Example C54_hash_wide_case : test_hash_compact_vector 5 32 45 (fun k => (k * 577987654321) mod 2 ^ 44) = Ok 0.
Proof. vm_compute. reflexivity. Qed.
Example C54_fast_ef_case : test_fast_ef (fun _ => (0, 1, 2)) (fun _ => []) 40 6 mixed (fun k => k mod 50 + 1) = Ok 0.
Proof. vm_compute. reflexivity. Qed.
Example C54_uniform_pef_case : test_uniform_pef (mkpads [0] [0]) (mkpads [0] [0]) 70 6 (fun k => k mod 101) mixed (fun k => k mod 50 + 1) = Ok 0.
Proof. vm_compute. reflexivity. Qed.
Example C54_mixed : forall k, 1 <= mixed k <= 6.
Proof. intros k. unfold mixed. pose proof (N.mod_lt k 5 ltac:(lia)). lia. Qed.

Print Assumptions C54_compact_vector.
Print Assumptions C54_hash_compact_vector.
Print Assumptions C54_fast_ef.
Print Assumptions C54_fast_ef_short.
Print Assumptions C54_uniform_pef_partial.
Print Assumptions C54_uniform_pef_refuted.
Print Assumptions C54_wide_ranges_refuted.
Print Assumptions C54_check.
