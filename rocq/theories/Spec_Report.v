(** * What the statistics report must say (C49), in terms of the n-grams of the input files *)
From Coq Require Import Floats.SpecFloat.
From Verif Require Import Prelude Spec Spec_Trie Spec_Stats M_Stats.

(** the pointers of the k-th level, [cap]: how many of the largest ranges are listed *)
Record ptrs_right {A} (D : list (list (gram * A))) (cap k : N) (r : ptr_report) : Prop := {
  pp_num : pr_num r = lenN (grams D k) + 1;
  pp_nonempty : pr_nonempty r = lenN (fanouts D k);
  pp_min : minimum (fanouts D k) (pr_min r);
  pp_max : maximum (fanouts D k) (pr_max r);
  pp_sum : pr_sum r = lenN (grams D (k + 1));
  pp_top : largest cap (fanouts D k) (pr_top r) }.
(** the k-th level *)
Record level_right {A} (D : list (list (gram * A))) (remap cap k : N) (r : level_report) : Prop := {
  lv_size : lr_size r = lenN (grams D k);
  lv_no_universe : k = 0 -> lr_universe r = None;
  (* levels whose ids are not remapped *)
  lv_universe : 0 < k -> remap = 0 \/ k <= remap ->
    exists us, Forall2 (furthest D k) (grams D (k - 1)) us /\ lr_universe r = Some (sumN us);
  lv_ptrs : if k + 1 <? lenN D then exists p, lr_ptrs r = Some p /\ ptrs_right D cap k p else lr_ptrs r = None;
  lv_terms : lr_terms r = if (k =? 1) || (k =? 2) then Some (fanouts D (k - 1)) else None;
  lv_no_occs : k <> 1 -> lr_occs r = None;
  lv_occs : k = 1 -> exists o, lr_occs r = Some o /\ NoDup (map fst o) /\
    forall i c, In (i, c) o <-> exists w, nthN (grams D 0) i = Some [w] /\ c = endings D w /\ 0 < c }.
