(** * Model of include/utils/binary_header.hpp and of the argument checks of the tools *)
From Coq Require Import String.
From Verif Require Import Prelude M_Text.

(** binary_header members, lines 191-195; None is [invalid] (-1), lines 37-48.
    data_structure_t: 0 hash, 1 ef_trie, 2 pef_trie; value_t: 0 count, 1 prob_backoff;
    ranks_t: 0 IC, 1 PSEF, 2 PSPEF (util_types.hpp 12-24) *)
Record bheader := mkbh { bh_ds : option N; bh_value : option N; bh_remap : option N;
                         bh_key : option N; bh_ranks : option N }.

(** check_is_valid, lines 50-54 *)
Definition bh_check (p : option N) : res N := match p with Some x => Ok x | None => Throw end.

(** get, lines 56-82; every [header |= x << position] is truncated to uint8_t *)
Definition bh_get (b : bheader) : res N :=
  ds <- bh_check (bh_ds b) ;;
  let header := u8 (N.lor 0 ds) in
  vt <- bh_check (bh_value b) ;;
  let header := u8 (N.lor header (N.shiftl vt 2)) in
  if ds =? 0 then
    kb <- bh_check (bh_key b) ;;
    Ok (u8 (N.lor header (N.shiftl (kb / 4 - 1) 3)))
  else
    ro <- bh_check (bh_remap b) ;;
    let header := u8 (N.lor header (N.shiftl ro 3)) in
    if vt =? 0 then
      rk <- bh_check (bh_ranks b) ;; Ok (u8 (N.lor header (N.shiftl rk 5)))
    else Ok header.

Local Open Scope string_scope.
(** parse, lines 84-189 (verbose output omitted); the asserts are compiled out,
    so an unknown code leaves the name as it is *)
Definition bh_parse (header : N) : string :=
  let ds := N.land header 3 in
  let name := if (ds =? 0)%N then "mph" else if (ds =? 1)%N then "ef_trie" else if (ds =? 2)%N then "pef_trie" else "" in
  let header := shr header 2 in
  let vt := N.land header 1 in
  let header := shr header 1 in
  let name :=
    if (ds =? 0)%N then
      let key_bytes := ((N.land header 1 + 1) * 4)%N in
      name ++ (if (key_bytes =? 4)%N then "32" else "64")
    else
      let ro := N.land header 3 in
      let header := shr header 2 in
      let name := if (ro =? 0)%N then name else if (ds =? 1)%N then "ef_rtrie" else "pef_rtrie" in
      if (vt =? 0)%N then
        let rk := N.land header 3 in
        name ++ (if (rk =? 0)%N then "_IC_ranks" else if (rk =? 1)%N then "_PSEF_ranks" else if (rk =? 2)%N then "_PSPEF_ranks" else "")
      else name in
  name ++ (if (vt =? 0)%N then "_count_lm" else "_prob_lm").

(** The types the tools dispatch on: lm_types.hpp 60-138 (TONGRAMS_TYPES) *)
Definition model_types : list string :=
  ["mph32_count_lm"; "mph64_count_lm"; "ef_trie_IC_ranks_count_lm"; "ef_trie_PSEF_ranks_count_lm";
   "ef_trie_PSPEF_ranks_count_lm"; "ef_rtrie_IC_ranks_count_lm"; "ef_rtrie_PSEF_ranks_count_lm";
   "ef_rtrie_PSPEF_ranks_count_lm"; "pef_trie_IC_ranks_count_lm"; "pef_trie_PSEF_ranks_count_lm";
   "pef_trie_PSPEF_ranks_count_lm"; "pef_rtrie_IC_ranks_count_lm"; "pef_rtrie_PSEF_ranks_count_lm";
   "pef_rtrie_PSPEF_ranks_count_lm"; "ef_trie_prob_lm"; "pef_trie_prob_lm"; "ef_rtrie_prob_lm";
   "pef_rtrie_prob_lm"; "mph32_prob_lm"; "mph64_prob_lm"].
Local Close Scope string_scope.

(** src/build_trie.cpp 54 with builder's uint8_t parameter (trie_count_lm.hpp 16-24):
    the order the model is built with, or an exception *)
Definition accepted_order (order : N) : res N := _ <- check_order order ;; Ok (u8 order).
(** src/build_trie.cpp 107-109: the remapping order the model is built with *)
Definition accepted_remapping (order : N) : res N := _ <- check_remapping_order order ;; Ok (u8 order).

(** float comparison with 0.0 on the bit pattern of a float (IEEE single):
    sign bit 31, exponent bits 23-30, fraction bits 0-22 *)
Definition f32_nan (b : N) : bool := (N.land (shr b 23) 255 =? 255) && negb (N.land b (N.ones 23) =? 0).
Definition f32_ge0 (b : N) : bool :=
  negb (f32_nan b) && (negb (N.testbit b 31) || (N.land b (N.ones 31) =? 0)).
(** check_unk_logprob, util.hpp 311-315 *)
Definition check_unk_logprob (b : N) : res unit := if f32_ge0 b then Throw else Ok tt.
