(** * C13: integer codes *)
From Verif Require Import Prelude BitFacts M_Word P_Word M_Bits Spec P_Bits P_Builder P_Cursor P_BitProg P_EF P_HashVec
  M_Codes Spec_Codes P_Codes.

(** A stream: some bits written before ([pre]), the fields, some bits written after ([post]). *)
Definition write_stream (pre : bprog) (items : list item) (post : bprog) : res bvb :=
  b <- brun pre ;; b <- foldM write_item items b ;; c <- brun post ;; bvb_append b c.

(** Writing lays down exactly the gamma/delta code words, and reading from the
    offset of the first one gives back every integer, with the cursor left
    exactly after each code word, whatever precedes and follows. *)
Theorem C13_codes_round_trip : forall pre items post,
  bwf pre -> bwf post -> Forall item_ok items ->
  lenN (bden pre) + lenN (items_code items) + lenN (bden post) + 64 < 2 ^ 64 ->
  exists b, write_stream pre items post = Ok b /\
    let v := bv_build b in
    let l := bden pre ++ items_code items ++ bden post in
    v_size v = lenN l /\ (forall i, i < lenN l -> bv_get v i = Ok (N.b2n (bit_at l i))) /\
    read_items v (bit_new (lenN (bden pre))) items = Ok (expected (lenN (bden pre)) items).
Proof.
  intros pre items post W1 W2 F L. unfold write_stream.
  destruct (brun_ok pre W1) as (b1 & E1 & R1 & L1). destruct (brun_ok post W2) as (c & Ec & Rc & Lc).
  rewrite E1. cbn [bind]. destruct (write_items_ok items b1 (bden pre) R1 F) as (b2 & E2 & R2); [lia|]. rewrite E2. cbn [bind].
  rewrite Ec. cbn [bind]. destruct (append_repl2 b2 _ c _ R2 Rc) as (b & E & R); [rewrite lenN_app; lia|]. exists b.
  split; [assumption|]. cbv zeta. rewrite <- app_assoc in R. pose proof (brep_build _ _ _ R) as V. split; [apply V|]. split.
  - intros i Hi. rewrite (bv_get_ok _ _ _ _ V Hi), tb_num_of. reflexivity.
  - apply read_items_ok with (c := bden post); [exact V|apply sinv_new|assumption].
Qed.

(** code words: lengths *)
Theorem C13_code_lengths : forall n,
  lenN (gamma_code n) = 2 * N.log2 (n + 1) + 1 /\
  lenN (delta_code n) = 2 * N.log2 (N.log2 (n + 1) + 1) + 1 + N.log2 (n + 1).
Proof.
  intros n. assert (G : forall m, lenN (gamma_code m) = 2 * N.log2 (m + 1) + 1).
  { intros m. unfold gamma_code. rewrite !lenN_app, lenN_rep, lenN_bits_of. change (lenN [true]) with 1. lia. }
  split; [apply G|]. unfold delta_code. rewrite lenN_app, lenN_bits_of, G. reflexivity.
Qed.

Definition codes_example_pre : bprog := BAppendBits (BNew 61 true) 5 3.
Definition codes_example : list item :=
  [Gamma 0; Delta (2 ^ 64 - 2); Raw 12345 17; GammaNonzero (2 ^ 64 - 1); Delta 0; Gamma 1000; Gamma (2 ^ 63); Delta 77].
Example C13_example :
  bwf codes_example_pre /\ Forall item_ok codes_example /\
  expected 64 codes_example =
    [(0, 65); (2 ^ 64 - 2, 65 + 13 + 63); (12345, 158); (2 ^ 64 - 1, 158 + 127); (0, 286); (1000, 305); (2 ^ 63, 305 + 127);
     (77, 432 + 5 + 6)] /\
  match write_stream codes_example_pre codes_example (BNew 5 true) with
  | Ok b => read_items (bv_build b) (bit_new 64) codes_example = Ok (expected 64 codes_example)
  | _ => False
  end.
Proof.
  split; [cbv; repeat split; intros H; discriminate H|]. split; [|split; vm_compute; reflexivity].
  unfold codes_example. repeat constructor; vm_compute; reflexivity || discriminate.
Qed.

(** A field of exactly 64 bits read with get_bits leaves its bits in the
    iterator's buffer with no bit available; a code read next starts from
    that stale buffer.  The value comes back wrong: the round trip does not
    extend to [Raw] fields of 64 bits. *)
Theorem C13_stale_buffer_refuted : exists items b,
  write_stream (BNew 0 false) items (BNew 0 false) = Ok b /\
  items = [Raw 1 64; Gamma 4] /\
  read_items (bv_build b) (bit_new 0) items <> Ok (expected 0 items).
Proof.
  exists [Raw 1 64; Gamma 4], (mkbvb [1; 12] 69 true).
  split; [vm_compute; reflexivity|]. split; [reflexivity|]. vm_compute. discriminate.
Qed.

(** The largest 64-bit integer has no code: n+1 wraps to 0 and the shift by msb(0) = 255 is undefined. *)
Theorem C13_max_refuted : forall b, write_gamma b (2 ^ 64 - 1) = UB /\ write_delta b (2 ^ 64 - 1) = UB.
Proof. intros b. split; reflexivity. Qed.

Print Assumptions C13_codes_round_trip.
Print Assumptions C13_code_lengths.
Print Assumptions C13_stale_buffer_refuted.
Print Assumptions C13_max_refuted.
