(** * Saving and loading a probability trie (C30) *)
From Coq Require Import Floats.SpecFloat.
From Verif Require Import Prelude M_Word M_Bits M_CompactVector M_DArray M_EF M_HashVec M_Mph M_FastEF M_SeqColl
  M_Text M_Trie M_MphCount M_Score M_Quant M_MphProb M_TrieProb M_Save Spec_Save P_Save Spec_Trie Spec_Arpa P_TrieProb1 Props_MphProb Props_TrieProb
  M_Save2 Spec_Save2 P_Save2 Props_Save.

(** any object of the class whose members hold values of their types *)
Theorem C30_trie_prob_file_restored : forall (x : ext) (header : N) m, ext_ok x -> is_u8 header -> t_tpl m ->
  let f := save_file header (save_tpl x) m in
  file_header f = Ok header /\ load_file (load_tpl x) f = Ok (m, lenN f).
Proof. intros x h m X H T. apply file_ok; [exact H|]. apply tpl_ok; assumption. Qed.
Print Assumptions C30_trie_prob_file_restored.

(** a probability trie built from any ARPA file of the kind C25 is about *)
Theorem C30_built_trie_prob_restored : forall (x : ext) (header : N) D secs env remap pq bq unk m, ext_ok x -> is_u8 header ->
  arpa_file D -> collection (reversed D) remap -> trie_inputs_ok D secs env remap pq bq ->
  is_float unk ->
  tp_build env secs (lenN D) remap unk pq bq = Ok m ->
  let f := save_file header (save_tpl x) m in
  file_header f = Ok header /\ load_file (load_tpl x) f = Ok (m, lenN f).
Proof.
  intros x h D secs env remap pq bq unk m X H AF CO TI FU E. apply C30_trie_prob_file_restored; [exact X|exact H|].
  exact (tp_build_typed D secs env remap pq bq AF CO TI unk m FU E).
Qed.
Print Assumptions C30_built_trie_prob_restored.

(** the models of the example of C25, written and read back, by computation *)
Example C30_example_trie_prob : forall remap, remap = 0 \/ remap = 1 ->
  match tx_build remap [77] with
  | Ok t => let f := save_file 5 (save_tpl ex_x) t in lenN f = 981 /\ file_header f = Ok 5 /\ load_file (load_tpl ex_x) f = Ok (t, lenN f)
  | _ => False end.
Proof. intros remap [->| ->]; vm_compute; (split; [reflexivity|split; reflexivity]). Qed.
Example C30_example_trie_prob_hyps : ext_ok ex_x /\ arpa_file txD /\ collection (reversed txD) 1 /\ trie_inputs_ok txD txsecs (txenv 1 [77]) 1 2 2 /\
  is_float default_unk.
Proof.
  split; [apply ex_x_ok|]. destruct (C25_trie_example_hyps 1 ltac:(lia)) as (H1 & H2 & H3 & _). split; [exact H1|]. split; [exact H2|]. split; [exact H3|].
  reflexivity.
Qed.
