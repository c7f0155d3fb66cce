(** * Model of include/vectors/hash_compact_vector.hpp and compact_triplets_vector.hpp *)
From Verif Require Import Prelude M_Word M_Bits.

(** ** hash_compact_vector<hash_t>; [hb] is hash_bits (32 or 64), line 14 *)

(** conversion to hash_t *)
Definition trunc (hb x : N) : N := N.land x (N.ones hb).

(** lines 103-107, 186-190 *)
Record hcv := mkhcv { h_size : N; h_width : N; h_mask : N; h_bits : list N }.

(** m_mask, line 22: all ones (64 of them) when w is hash_bits or 64.
    The value of [1 << 64] is irrelevant then ([or] with all ones). *)
Definition h_mask_of (hb w : N) : N :=
  if (w =? hb) || (w =? 64) then N.ones 64 else sub64 (shl 1 w) 1.

(** lines 19-36; essentials::words_for<hash_t>(b) = ceil(b / hash_bits) is external code.
    std::abort() is [Throw]. *)
Definition hcv_new (hb n w : N) : res hcv :=
  if w =? 0 then Throw else if 64 <? w then Throw else
  Ok (mkhcv n w (h_mask_of hb w) (repN 0 ((mul64 n (hb + w) + (hb - 1)) / hb))).

(** m_bits[i] = hash_t(f(m_bits[i])) *)
Definition updh (hb : N) (ws : list N) (i : N) (f : N -> N) : res (list N) :=
  upd ws i (fun w => trunc hb (f w)).

(** builder::set, lines 38-78 *)
Definition hcv_set (hb : N) (c : hcv) (i k v : N) : res hcv :=
  let w := h_width c in let mask := h_mask c in
  let pos := trunc hb (mul64 i (hb + w)) in
  let block := pos / hb in
  let shift := N.land pos (hb - 1) in
  ws <- (if negb (shift =? 0) then
    let key_mask := sub64 (trunc hb (N.shiftl 1 shift)) 1 in
    let ws := h_bits c in
    ws <- updh hb ws block (fun x => N.land x key_mask) ;;
    ws <- updh hb ws block (fun x => N.lor x (trunc hb (N.shiftl k shift))) ;;
    let res_shift := hb - shift in
    ws <- updh hb ws (block + 1) (fun x => N.land x (not64 key_mask)) ;;
    ws <- updh hb ws (block + 1) (fun x => N.lor x (shr k res_shift)) ;;
    ws <- updh hb ws (block + 1) (fun x => N.land x (not64 (shl mask shift))) ;;
    ws <- updh hb ws (block + 1) (fun x => N.lor x (shl v shift)) ;;
    if res_shift <? w then
      ws <- updh hb ws (block + 2) (fun x => N.land x (not64 (shr mask res_shift))) ;;
      ws <- updh hb ws (block + 2) (fun x => N.lor x (shr v res_shift)) ;;
      if (hb =? 32) && (res_shift + 32 <? w) then
        let res_shift2 := w - 32 - res_shift in
        ws <- updh hb ws (block + 3) (fun x => N.land x (not64 (shr mask res_shift2))) ;;
        updh hb ws (block + 3) (fun x => N.lor x (shr v (32 + res_shift)))
      else Ok ws
    else Ok ws
  else
    ws <- updh hb (h_bits c) block (fun _ => k) ;;
    ws <- updh hb ws (block + 1) (fun x => N.land x (not64 mask)) ;;
    ws <- updh hb ws (block + 1) (fun x => N.lor x v) ;;
    if (hb =? 32) && (32 <? w) then
      let res_shift := w - 32 in
      ws <- updh hb ws (block + 2) (fun x => N.land x (not64 (shr mask res_shift))) ;;
      updh hb ws (block + 2) (fun x => N.lor x (shr v 32))
    else Ok ws) ;;
  Ok (mkhcv (h_size c) w mask ws).

(** operator[], lines 124-158 *)
Definition hcv_get (hb : N) (c : hcv) (i : N) : res (N * N) :=
  let w := h_width c in let mask := h_mask c in let ws := h_bits c in
  let pos := trunc hb (mul64 i (hb + w)) in
  let block := pos / hb in
  let shift := N.land pos (hb - 1) in
  if negb (shift =? 0) then
    let res_shift := hb - shift in
    w0 <- rd ws block ;;
    w1 <- rd ws (block + 1) ;;
    let k := trunc hb (N.lor (shr w0 shift) (trunc hb (N.shiftl w1 res_shift))) in
    let v := N.land (shr w1 shift) mask in
    if res_shift <? w then
      w2 <- rd ws (block + 2) ;;
      let v := N.lor v (shl (N.land w2 (sub64 (shl 1 (w - res_shift)) 1)) res_shift) in
      if (hb =? 32) && (res_shift + 32 <? w) then
        w3 <- rd ws (block + 3) ;;
        Ok (k, N.lor v (shl (N.land w3 (sub64 (shl 1 (w - 32 - res_shift)) 1)) (32 + res_shift)))
      else Ok (k, v)
    else Ok (k, v)
  else
    w0 <- rd ws block ;;
    w1 <- rd ws (block + 1) ;;
    let v := N.land w1 mask in
    if (hb =? 32) && (32 <? w) then
      w2 <- rd ws (block + 2) ;;
      Ok (w0, N.lor v (shl (N.land w2 (sub64 (shl 1 (w - 32)) 1)) 32))
    else Ok (w0, v).

(** ** compact_triplets_vector *)
(** builder members, lines 73-77 *)
Record ctb := mkctb { tb_size : N; tb_w1 : N; tb_w2 : N; tb_w3 : N; tb_bits : bvb }.
(** width(w), lines 26-28 *)
Definition ct_width (w : N) : N := if w =? 0 then 1 else w.
(** lines 15-24 *)
Definition ctb_new (n w1 w2 w3 : N) : res ctb :=
  let w1 := ct_width w1 in let w2 := ct_width w2 in let w3 := ct_width w3 in
  if (64 <? w1) || (64 <? w2) || (64 <? w3) then Throw
  else Ok (mkctb n w1 w2 w3 (bvb_new (mul64 n (add64 (add64 w1 w2) w3)) false)).
(** lines 42-49 *)
Definition ctb_set (b : ctb) (i : N) (t : N * N * N) : res ctb :=
  let '(x, y, z) := t in
  let pos := mul64 i (add64 (add64 (tb_w1 b) (tb_w2 b)) (tb_w3 b)) in
  bits <- bvb_set_bits (tb_bits b) pos x (tb_w1 b) ;;
  let pos := add64 pos (tb_w1 b) in
  bits <- bvb_set_bits bits pos y (tb_w2 b) ;;
  let pos := add64 pos (tb_w2 b) in
  bits <- bvb_set_bits bits pos z (tb_w3 b) ;;
  Ok (mkctb (tb_size b) (tb_w1 b) (tb_w2 b) (tb_w3 b) bits).
(** members, lines 122-127 *)
Record ct := mkct { t_size : N; t_w1 : N; t_w2 : N; t_w3 : N; t_bits : bv }.
(** lines 51-58 *)
Definition ctb_build (b : ctb) : ct := mkct (tb_size b) (tb_w1 b) (tb_w2 b) (tb_w3 b) (bv_build (tb_bits b)).
(** operator[], lines 82-91 *)
Definition ct_get (c : ct) (i : N) : res (N * N * N) :=
  let it := bit_new (mul64 i (add64 (add64 (t_w1 c) (t_w2 c)) (t_w3 c))) in
  ' (x, it) <- bit_get_bits (t_bits c) it (t_w1 c) ;;
  ' (y, it) <- bit_get_bits (t_bits c) it (t_w2 c) ;;
  ' (z, it) <- bit_get_bits (t_bits c) it (t_w3 c) ;;
  Ok (x, y, z).
