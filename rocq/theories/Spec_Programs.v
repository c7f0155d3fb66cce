(** * What the programs are asked and what they read *)
From Coq Require Import String.
From Verif Require Import Prelude M_Text M_Trie Spec_Trie P_Trie3 Spec_ArpaFile Spec_GramFile M_Programs.

(** the names of the ranks and of the model types, as in the README and lm_types.hpp *)
Definition ranks_name (r : ranks_t) : string := match r with R_IC => "IC" | R_PSEF => "PSEF" | R_PSPEF => "PSPEF" end.
Definition structure_name (pef : bool) : string := if pef then "pef_trie" else "ef_trie".
Definition type_name (pef : bool) (remap : N) (r : ranks_t) : string :=
  (if pef then "pef" else "ef") ++ (if (remap =? 0)%N then "_trie_" else "_rtrie_") ++ ranks_name r ++ "_ranks_count_lm".
(** the arguments of build_trie ask for this structure, order, remapping order and ranks *)
Definition asks (a : trie_args) (pef : bool) (order remap : N) (r : ranks_t) : Prop :=
  ta_type a = structure_name pef /\ ta_order a = order /\ ta_unk a = None /\
  (ta_remap a = Some remap \/ ta_remap a = None /\ remap = 0%N) /\
  (ta_ranks a = Some (ranks_name r) \/ ta_ranks a = None /\ r = R_IC).
(** the file name: given, or made from the type *)
Definition out_name (out : option string) (ty : string) : string := match out with Some o => o | None => ty ++ ".out" end.

(** the directory holds, for each order, a count file with the grams of [D] *)
Definition holds_counts (d : dir) (D : list (list (gram * N))) : Prop :=
  forall k l, nthN D k = Some l -> d (k + 1) = Some (count_file (lenN l) (map line l)).
(** no word contains a newline *)
Definition no_newlines (D : list (list (gram * N))) : Prop :=
  forall l g c w, In l D -> In (g, c) l -> In w g -> ~ In 10 w.
