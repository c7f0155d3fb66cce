(** * What a successful build has checked *)
From Coq Require Import Floats.SpecFloat Sorted.
From Verif Require M_TriePef M_TrieProbPef.
From Verif Require Import Prelude BitFacts M_Word M_Bits Spec M_CompactVector M_DArray M_EF M_HashVec M_Mph M_FastEF M_Text M_SeqColl M_Pool M_Trie M_Score M_Quant M_MphProb M_TrieProb M_ArpaFile P_Typed Spec_Complete.

(** ** the scans *)
Lemma skipn_at {A} (l : list A) i x : nthN l i = Some x -> skipn (N.to_nat i) l = x :: skipn (N.to_nat (i + 1)) l.
Proof.
  unfold nthN. replace (N.to_nat (i + 1)) with (S (N.to_nat i)) by lia. generalize (N.to_nat i). intros n. clear i. revert l. induction n as [|n IH]; intros [|a l] H; cbn [nth_error] in H; try discriminate.
  - injection H as ->. reflexivity.
  - apply IH in H. cbn [skipn]. rewrite H. destruct l; reflexivity.
Qed.
Lemma split_at {A} (l : list A) i : l = firstn (N.to_nat i) l ++ skipn (N.to_nat i) l. Proof. symmetry. apply firstn_skipn. Qed.
Lemma nth_firstn {A} (l : list A) i k : nthN (firstn (N.to_nat k) l) i = if i <? k then nthN l i else None.
Proof.
  unfold nthN. destruct (N.ltb_spec i k) as [L|L].
  - assert (X : (N.to_nat i < N.to_nat k)%nat) by lia. revert X. generalize (N.to_nat i) (N.to_nat k). clear. intros n m. revert n l. induction m as [|m IH]; intros n l L; [lia|]. destruct l as [|a l]; [destruct n; reflexivity|]. destruct n; [reflexivity|]. cbn. apply IH. lia.
  - apply nth_error_None. rewrite firstn_length. lia.
Qed.
Lemma nth_skipn {A} (l : list A) i k : nthN (skipn (N.to_nat k) l) i = nthN l (k + i).
Proof. unfold nthN. rewrite N2Nat.inj_add. generalize (N.to_nat i) (N.to_nat k). intros n m. revert l. induction m as [|m IH]; intros l; [reflexivity|]. destruct l as [|a l]; [destruct n; reflexivity|]. cbn. apply IH. Qed.
Lemma In_nth {A} (l : list A) x : In x l -> exists i, nthN l i = Some x.
Proof. intros H. apply In_nth_error in H. destruct H as (n & H). exists (N.of_nat n). unfold nthN. rewrite Nat2N.id. exact H. Qed.
Lemma not_in_first {A} (l : list A) x k : (forall i, i < k -> nthN l i <> Some x) -> ~ In x (firstn (N.to_nat k) l).
Proof. intros H I. apply In_nth in I. destruct I as (i & E). rewrite nth_firstn in E. destruct (N.ltb_spec i k); [|discriminate]. apply (H i); assumption. Qed.

Lemma seek_end_inv sep fuel : forall buf pos end_ p, seek_end fuel buf pos end_ sep = Ok p -> pos <= end_ ->
  pos <= p <= end_ /\ (forall i, pos <= i < p -> nthN buf i <> Some sep) /\ (p = end_ \/ nthN buf p = Some sep).
Proof.
  induction fuel as [|f IH]; intros buf pos end_ p E L; cbn [seek_end] in E; [discriminate|]. destruct (N.eqb_spec pos end_) as [->|NE].
  - injection E as <-. split; [lia|]. split; [intros i Hi; lia|left; reflexivity].
  - apply bind_inv in E. destruct E as (c & E1 & E). apply rd_inv in E1. destruct (N.eqb_spec c sep) as [->|NS].
    + injection E as <-. split; [lia|]. split; [intros i Hi; lia|right; exact E1].
    + apply IH in E; [|lia]. destruct E as (A & B & C). split; [lia|]. split; [|exact C]. intros i Hi. destruct (N.eq_dec i pos) as [->|]; [congruence|apply B; lia].
Qed.
Lemma seek_inv sep fuel : forall buf pos p, seek fuel buf pos sep = Ok p -> pos <= p /\ (forall i, pos <= i < p -> nthN buf i <> Some sep) /\ nthN buf p = Some sep.
Proof.
  induction fuel as [|f IH]; intros buf pos p E; cbn [seek] in E; [discriminate|]. apply bind_inv in E. destruct E as (c & E1 & E). apply rd_inv in E1. destruct (N.eqb_spec c sep) as [->|NS].
  - injection E as <-. split; [lia|]. split; [intros i Hi; lia|exact E1].
  - apply IH in E. destruct E as (A & B & C). split; [lia|]. split; [|exact C]. intros i Hi. destruct (N.eq_dec i pos) as [->|]; [congruence|apply B; lia].
Qed.
Lemma sub_wrap : sub64 0 1 = 2 ^ 64 - 1. Proof. reflexivity. Qed.
Lemma seek_back_inv fuel : forall buf pos p, lenN buf < 2 ^ 64 -> seek_back fuel buf pos = Ok p ->
  exists s, s <= pos /\ pos < lenN buf /\ nthN buf s = Some 32 /\ p = sub64 s 1 /\ forall i, s < i <= pos -> nthN buf i <> Some 32.
Proof.
  induction fuel as [|f IH]; intros buf pos p L E; cbn [seek_back] in E; [discriminate|]. apply bind_inv in E. destruct E as (c & E1 & E). apply rd_inv in E1. pose proof (nthN_lt _ _ _ E1) as LP.
  unfold c_space in E. destruct (N.eqb_spec c 32) as [->|NS].
  - injection E as <-. exists pos. split; [lia|]. split; [exact LP|]. split; [exact E1|]. split; [reflexivity|]. intros i Hi. lia.
  - apply IH in E; [|exact L]. destruct E as (s & A & B & C & D & G). destruct (N.eq_dec pos 0) as [->|NZ].
    + exfalso. rewrite sub_wrap in B. clear - B L. lia.
    + rewrite sub64_small in * by (clear - NZ LP L; lia). exists s. split; [lia|]. split; [lia|]. split; [exact C|]. split; [exact D|]. intros i Hi. destruct (N.eq_dec i pos) as [->|]; [congruence|apply G; lia].
Qed.
Lemma memeq_inv n : forall bx by_ x y, memeq n bx by_ x y = Ok true -> firstn n (skipn (N.to_nat x) bx) = firstn n (skipn (N.to_nat y) by_).
Proof.
  induction n as [|n IH]; intros bx by_ x y E; [reflexivity|]. cbn [memeq] in E. apply bind_inv in E. destruct E as (a & E1 & E). apply bind_inv in E. destruct E as (b & E2 & E). apply rd_inv in E1, E2.
  destruct (N.eqb_spec a b) as [->|]; [|discriminate]. apply IH in E. rewrite (skipn_at _ _ _ E1), (skipn_at _ _ _ E2). cbn [firstn]. rewrite E. reflexivity.
Qed.

(** ** lines of count files *)
Lemma nth_c_str l i : i < lenN l -> nthN (c_str l) i = nthN l i. Proof. intros H. unfold c_str. apply nthN_app1. exact H. Qed.
Lemma parse_count_inv l r c : parse_count_line l = Ok (r, c) -> fst r = 0 /\ snd r <= lenN l /\ before_tab l (firstn (N.to_nat (snd r)) l).
Proof.
  intros E. unfold parse_count_line in E. apply bind_inv in E. destruct E as (br & E1 & E). assert (X : br = r) by (destruct (snd br =? lenN l); [injection E as <- <-; reflexivity|apply bind_inv in E; destruct E as (z & _ & E); injection E as <- <-; reflexivity]).
  subst br. clear E. unfold split_upon_check_end in E1. apply bind_inv in E1. destruct E1 as (p & E1 & E). injection E as <-. cbn [fst snd].
  apply seek_end_inv in E1; [|lia]. destruct E1 as (A & B & C). split; [reflexivity|]. split; [lia|]. split.
  - apply not_in_first. intros i Hi. rewrite <- nth_c_str by lia. apply B. unfold c_tab. lia.
  - destruct (N.eq_dec p (lenN l)) as [->|NE].
    + left. unfold lenN. rewrite Nat2N.id, firstn_all. reflexivity.
    + right. destruct C as [C|C]; [contradiction|]. rewrite nth_c_str in C by lia. exists (skipn (N.to_nat (p + 1)) l). rewrite <- (skipn_at l p 9 C). symmetry. apply firstn_skipn.
Qed.
Lemma predecessor_inv l r c pt : lenN l < 2 ^ 63 -> parse_count_line l = Ok (r, c) -> predecessor (c_str l) r = Ok pt ->
  fst pt = 0 /\ snd pt <= lenN l /\ exists g, before_tab l g /\ without_last g (firstn (N.to_nat (snd pt)) l).
Proof.
  intros L E P. apply parse_count_inv in E. destruct E as (F0 & L1 & BT). unfold predecessor in P. apply bind_inv in P. destruct P as (p & E & P). injection P as <-. cbn [fst snd].
  assert (LB : lenN (c_str l) < 2 ^ 64) by (unfold c_str; rewrite lenN_app, lenN_cons, lenN_nil; clear - L; lia).
  apply seek_back_inv in E; [|exact LB]. destruct E as (s & A & B & C & -> & G).
  assert (NZ : snd r <> 0). { intros Z. rewrite Z, sub_wrap in B. clear - B LB. lia. }
  rewrite sub64_small in A, B, G by (clear - NZ L1 L; lia).
  assert (ES : add64 (sub64 s 1) 1 = s).
  { destruct (N.eq_dec s 0) as [->|]; [reflexivity|]. rewrite sub64_small by (clear - n A L L1; lia). rewrite add64_small; [lia|clear - n A L L1; lia]. }
  rewrite ES. split; [exact F0|]. split; [lia|]. exists (firstn (N.to_nat (snd r)) l). split; [exact BT|].
  exists (skipn (N.to_nat (s + 1)) (firstn (N.to_nat (snd r)) l)). split.
  - intros I. apply In_nth in I. destruct I as (i & I). rewrite nth_skipn, nth_firstn in I. destruct (N.ltb_spec (s + 1 + i) (snd r)); [|discriminate]. apply (G (s + 1 + i)); [lia|]. rewrite nth_c_str by lia. exact I.
  - assert (H : nthN (firstn (N.to_nat (snd r)) l) s = Some 32). { rewrite nth_firstn. destruct (N.ltb_spec s (snd r)); [|lia]. rewrite <- nth_c_str by lia. exact C. }
    rewrite <- (skipn_at _ _ _ H). rewrite <- (firstn_skipn (N.to_nat s) (firstn (N.to_nat (snd r)) l)) at 1. f_equal. rewrite firstn_firstn. f_equal. lia.
Qed.
Lemma firstn_c_str l k : k <= lenN l -> firstn (N.to_nat k) (c_str l) = firstn (N.to_nat k) l.
Proof. intros H. unfold c_str. rewrite firstn_app. replace (N.to_nat k - length l)%nat with 0%nat by (unfold lenN in H; lia). cbn [firstn]. apply app_nil_r. Qed.
Lemma equal_count l l' r c r' c' pt : lenN l < 2 ^ 63 -> lenN l' < 2 ^ 63 ->
  parse_count_line l = Ok (r, c) -> predecessor (c_str l) r = Ok pt -> parse_count_line l' = Ok (r', c') ->
  equal_bytes (c_str l) (c_str l') pt r' = Ok true -> by_prefix l' l.
Proof.
  intros L L' E P E' Q. destruct (predecessor_inv l r c pt L E P) as (F0 & L1 & g & BT & WL). apply parse_count_inv in E'. destruct E' as (F0' & L1' & BT').
  unfold equal_bytes in Q. rewrite F0, F0' in Q. assert (X : sub64 (snd pt) 0 = snd pt) by (rewrite sub64_small by (clear - L L1; lia); lia). assert (X' : sub64 (snd r') 0 = snd r') by (rewrite sub64_small by (clear - L' L1'; lia); lia).
  rewrite X, X' in Q. destruct (N.eqb_spec (snd pt) (snd r')) as [EL|]; [|discriminate]. apply memeq_inv in Q. change (N.to_nat 0) with 0%nat in Q. cbn [skipn] in Q.
  exists g, (firstn (N.to_nat (snd pt)) l). split; [exact BT|]. split; [|exact WL]. rewrite !firstn_c_str in Q by lia. rewrite Q, EL. exact BT'.
Qed.

(** ** the loops *)
Lemma foldM_each {A S} (f : S -> A -> res S) l : forall s s', foldM f l s = Ok s' -> forall x, In x l -> exists a b, f a x = Ok b.
Proof.
  induction l as [|y l IH]; intros s s' E x I; [destruct I|]. cbn [foldM] in E. apply bind_inv in E. destruct E as (t & E1 & E). destruct I as [->|I]; [eauto|]. eapply IH; eauto.
Qed.
Section Fold.
Variable St : Type.
Variable step : St -> list N -> res St.
Variable prv_of : St -> list (list N).
Variable R : list N -> list N -> Prop.
Variable good : list N -> Prop.
Hypothesis step_ok : forall s l s', good l -> Forall good (prv_of s) -> step s l = Ok s' ->
  exists j l' rest, prv_of s' = skipn j (prv_of s) /\ prv_of s' = l' :: rest /\ R l' l.
Lemma Forall_skipn {A} (P : A -> Prop) n l : Forall P l -> Forall P (skipn n l).
Proof. revert l. induction n as [|n IH]; intros l H; [exact H|]. destruct H; [constructor|]. cbn. apply IH. assumption. Qed.
Lemma skipn_skipn' {A} (a b : nat) (l : list A) : skipn a (skipn b l) = skipn (b + a) l.
Proof. revert l. induction b as [|b IH]; intros l; [reflexivity|]. destruct l; [rewrite !skipn_nil; reflexivity|]. cbn. apply IH. Qed.
Lemma fold_continues_from prv : Forall good prv -> forall cur s s' i, Forall good cur -> prv_of s = skipn i prv -> foldM step cur s = Ok s' ->
  exists at_, Forall2 (fun l i => exists l', nthN prv i = Some l' /\ R l' l) cur at_ /\ StronglySorted N.le at_ /\ Forall (N.le (N.of_nat i)) at_.
Proof.
  intros HP. induction cur as [|l cur IH]; intros s s' i HC EP E; [exists []; repeat constructor|].
  apply Forall_cons_iff in HC. destruct HC as [HL HC]. cbn [foldM] in E. apply bind_inv in E. destruct E as (t & E1 & E).
  destruct (step_ok s l t HL ltac:(rewrite EP; apply Forall_skipn; exact HP) E1) as (j & l' & rest & A & B & C).
  rewrite EP, skipn_skipn' in A. destruct (IH t s' (i + j)%nat HC A E) as (at_ & F & SS & GE). exists (N.of_nat (i + j) :: at_). split; [|split].
  - constructor; [|exact F]. exists l'. split; [|exact C]. rewrite <- (N.add_0_r (N.of_nat (i + j))), <- nth_skipn, Nat2N.id, <- A, B. reflexivity.
  - constructor; [exact SS|exact GE].
  - constructor; [lia|]. eapply Forall_impl; [|exact GE]. intros a Ha. cbv beta in *. lia.
Qed.
Lemma fold_continues prv cur s s' : Forall good prv -> Forall good cur -> prv_of s = prv -> foldM step cur s = Ok s' -> continues R prv cur.
Proof. intros HP HC EP E. destruct (fold_continues_from prv HP cur s s' 0 HC EP E) as (at_ & A & B & _). exists at_. auto. Qed.
End Fold.

(** ** count tries *)
Definition short (l : list N) : Prop := lenN l < 2 ^ 63.
Lemma advance_inv l r c pt : short l -> parse_count_line l = Ok (r, c) -> predecessor (c_str l) r = Ok pt ->
  forall prv ptrs pointer rest ptrs', Forall short prv -> advance (c_str l) pt prv ptrs pointer = Ok (rest, ptrs') ->
  exists j, rest = skipn j prv /\ (rest = [] \/ exists l' rest', rest = l' :: rest' /\ by_prefix l' l).
Proof.
  intros L E P. induction prv as [|l' prv IH]; intros ptrs pointer rest ptrs' HP A; cbn [advance] in A.
  - injection A as <- _. exists 0%nat. split; [reflexivity|left; reflexivity].
  - apply Forall_cons_iff in HP. destruct HP as [L' HP]. apply bind_inv in A. destruct A as ((r' & c') & E' & A). apply bind_inv in A. destruct A as (b & Q & A). destruct b.
    + injection A as <- _. exists 0%nat. split; [reflexivity|right]. exists l', prv. split; [reflexivity|]. eapply equal_count; eauto.
    + apply IH in A; [|exact HP]. destruct A as (j & -> & D). exists (S j). split; [reflexivity|exact D].
Qed.
Lemma ngram_step_inv env v arrays cb order remap s l s' : short l -> Forall short (bs_prv s) -> ngram_step env v arrays cb order remap s l = Ok s' ->
  exists j l' rest, bs_prv s' = skipn j (bs_prv s) /\ bs_prv s' = l' :: rest /\ by_prefix l' l.
Proof.
  intros L HP E. unfold ngram_step in E. apply bind_inv in E. destruct E as ((r & c) & E1 & E). apply bind_inv in E. destruct E as (pt & E2 & E). apply bind_inv in E. destruct E as ((prv & ptrs) & E3 & E).
  destruct (advance_inv l r c pt L E1 E2 _ _ _ _ _ HP E3) as (j & A & D). destruct prv as [|l' rest]; [discriminate|]. destruct D as [D|(l1 & rest1 & D & B)]; [discriminate|]. injection D as <- <-.
  apply bind_inv in E. destruct E as (id & _ & E). apply bind_inv in E. destruct E as (id' & _ & E). apply bind_inv in E. destruct E as (g & _ & E). apply bind_inv in E. destruct E as (rk & _ & E). apply bind_inv in E. destruct E as (k & _ & E).
  injection E as <-. cbn [bs_prv]. exists j, l', rest. auto.
Qed.
Lemma in_seqN x n : forall b, In x (seqN b n) <-> b <= x < b + N.of_nat n.
Proof.
  induction n as [|n IH]; intros b; cbn [seqN In]; [split; [intros []|lia]|]. rewrite IH. lia.
Qed.
Lemma trie_build_checked env files order remap t : Forall (Forall short) files -> trie_build env files order remap = Ok t ->
  forall k prv cur, k + 1 < order -> nthN files k = Some prv -> nthN files (k + 1) = Some cur -> continues by_prefix prv cur.
Proof.
  intros HF E k prv cur Hk Hp Hc. unfold trie_build in E. do 2 (apply bind_inv in E; destruct E as (? & _ & E)). apply bind_inv in E. destruct E as (fs & _ & E). apply bind_inv in E. destruct E as (vals & _ & E).
  apply bind_inv in E. destruct E as (cb & _ & E). apply bind_inv in E. destruct E as (l1 & _ & E). apply bind_inv in E. destruct E as ((v & arrays) & _ & E). apply bind_inv in E. destruct E as (arrays' & E & _).
  destruct (foldM_each _ _ _ _ E (k + 2)) as (a & b & EB). { apply in_seqN. lia. }
  unfold build_order in EB. replace (k + 2 - 2) with k in EB by lia. replace (k + 2 - 1) with (k + 1) in EB by lia.
  apply bind_inv in EB. destruct EB as (p & E1 & EB). apply rd_inv in E1. rewrite Hp in E1. injection E1 as <-. apply bind_inv in EB. destruct EB as (c & E1 & EB). apply rd_inv in E1. rewrite Hc in E1. injection E1 as <-.
  apply bind_inv in EB. destruct EB as (mr & _ & EB). apply bind_inv in EB. destruct EB as (sb & _ & EB). apply bind_inv in EB. destruct EB as ((ptrs & sb') & EN & _).
  unfold build_ngrams in EN. apply bind_inv in EN. destruct EN as (s & EN & _).
  rewrite Forall_forall in HF. apply (fold_continues bstate _ bs_prv by_prefix short) with (5 := EN).
  - intros s0 l s1 L HP X. eapply ngram_step_inv; eauto.
  - apply HF. eapply nthN_In. exact Hp.
  - apply HF. eapply nthN_In. exact Hc.
  - reflexivity.
Qed.

Import M_TriePef.
Lemma pngram_step_inv env v cb order remap s l s' : short l -> Forall short (bs_prv (fst s)) -> pngram_step env v cb order remap s l = Ok s' ->
  exists j l' rest, bs_prv (fst s') = skipn j (bs_prv (fst s)) /\ bs_prv (fst s') = l' :: rest /\ by_prefix l' l.
Proof.
  destruct s as [s arr]. cbn [fst]. intros L HP E. unfold pngram_step in E. apply bind_inv in E. destruct E as ((r & c) & E1 & E). apply bind_inv in E. destruct E as (pt & E2 & E). apply bind_inv in E. destruct E as ((prv & ptrs) & E3 & E).
  destruct (advance_inv l r c pt L E1 E2 _ _ _ _ _ HP E3) as (j & A & D). destruct prv as [|l' rest]; [discriminate|]. destruct D as [D|(l1 & rest1 & D & B)]; [discriminate|]. injection D as <- <-.
  apply bind_inv in E. destruct E as (id & _ & E). apply bind_inv in E. destruct E as ((id' & arr') & _ & E). apply bind_inv in E. destruct E as (g & _ & E). apply bind_inv in E. destruct E as (rk & _ & E). apply bind_inv in E. destruct E as (k & _ & E).
  injection E as <-. cbn [bs_prv fst]. exists j, l', rest. auto.
Qed.
Lemma ptrie_build_checked env files order remap t : Forall (Forall short) files -> ptrie_build env files order remap = Ok t ->
  forall k prv cur, k + 1 < order -> nthN files k = Some prv -> nthN files (k + 1) = Some cur -> continues by_prefix prv cur.
Proof.
  intros HF E k prv cur Hk Hp Hc. unfold ptrie_build in E. do 2 (apply bind_inv in E; destruct E as (? & _ & E)). apply bind_inv in E. destruct E as (fs & _ & E). apply bind_inv in E. destruct E as (vals & _ & E).
  apply bind_inv in E. destruct E as (cb & _ & E). apply bind_inv in E. destruct E as (l1 & _ & E). apply bind_inv in E. destruct E as ((v & arrays) & _ & E). apply bind_inv in E. destruct E as (arrays' & E & _).
  destruct (foldM_each _ _ _ _ E (k + 2)) as (a & b & EB). { apply in_seqN. lia. }
  unfold pbuild_order in EB. replace (k + 2 - 2) with k in EB by lia. replace (k + 2 - 1) with (k + 1) in EB by lia.
  apply bind_inv in EB. destruct EB as (p & E1 & EB). apply rd_inv in E1. rewrite Hp in E1. injection E1 as <-. apply bind_inv in EB. destruct EB as (c & E1 & EB). apply rd_inv in E1. rewrite Hc in E1. injection E1 as <-.
  apply bind_inv in EB. destruct EB as (mr & _ & EB). apply bind_inv in EB. destruct EB as (sb & _ & EB). apply bind_inv in EB. destruct EB as (((ptrs & sb') & arr') & EN & _).
  unfold pbuild_ngrams in EN. apply bind_inv in EN. destruct EN as (s & EN & _).
  rewrite Forall_forall in HF. apply (fold_continues (bstate * list parr) _ (fun s => bs_prv (fst s)) by_prefix short) with (5 := EN).
  - intros s0 l s1 L HP X. eapply pngram_step_inv; eauto.
  - apply HF. eapply nthN_In. exact Hp.
  - apply HF. eapply nthN_In. exact Hc.
  - reflexivity.
Qed.

(** ** tries of probabilities *)
Section Arpa.
Variable sd : list N -> N -> F * N.
Definition num_end (l : list N) : N := snd (sd (c_str l) 0).
Lemma parse_arpa_inv l r : parse_arpa_line sd l = Ok r ->
  fst (r_gram r) = num_end l + 1 /\ fst (r_gram r) <= snd (r_gram r) <= lenN l /\ after_number (num_end l) l (slice l (fst (r_gram r)) (snd (r_gram r) - fst (r_gram r))).
Proof.
  intros E. unfold parse_arpa_line in E. unfold num_end. destruct (sd (c_str l) 0) as [pr e]. cbn [snd]. destruct (N.ltb_spec (lenN l) (e + 1)) as [|L]; [discriminate|].
  apply bind_inv in E. destruct E as (p & E1 & E). injection E as <-. cbn [r_gram fst snd]. apply seek_end_inv in E1; [|exact L]. destruct E1 as (A & B & C). unfold c_tab in *.
  split; [reflexivity|]. split; [lia|]. exists (firstn (N.to_nat (e + 1)) l). split; [unfold lenN; rewrite firstn_length; unfold lenN in L; lia|].
  assert (SP : forall q, firstn (N.to_nat (e + 1)) l ++ slice l (e + 1) (q - (e + 1)) ++ skipn (N.to_nat q) l = l \/ q < e + 1).
  { intros q. destruct (N.lt_ge_cases q (e + 1)) as [X|X]; [right; exact X|left]. unfold slice. rewrite <- (firstn_skipn (N.to_nat (e + 1)) l) at 4. f_equal.
    rewrite <- (firstn_skipn (N.to_nat (q - (e + 1))) (skipn (N.to_nat (e + 1)) l)) at 2. f_equal. rewrite skipn_skipn'. f_equal. lia. }
  split.
  - unfold slice. intros I. apply In_nth in I. destruct I as (i & I). rewrite nth_firstn in I. destruct (N.ltb_spec i (p - (e + 1))) as [Hi|]; [|discriminate]. rewrite nth_skipn in I.
    apply (B (e + 1 + i)); [lia|]. rewrite nth_c_str by lia. exact I.
  - destruct (SP p) as [X|X]; [|lia]. destruct (N.eq_dec p (lenN l)) as [->|NE].
    + left. rewrite <- X at 1. rewrite (skipn_all2 l) by (unfold lenN; lia). rewrite app_nil_r. reflexivity.
    + right. destruct C as [C|C]; [contradiction|]. rewrite nth_c_str in C by lia. exists (skipn (N.to_nat (p + 1)) l). rewrite <- (skipn_at l p 9 C). symmetry. exact X.
Qed.
Lemma slice_c_str l a n : a + n <= lenN l -> slice (c_str l) a n = slice l a n.
Proof.
  intros H. unfold slice, c_str. rewrite skipn_app. rewrite firstn_app. rewrite skipn_length. replace (N.to_nat n - (length l - N.to_nat a))%nat with 0%nat by (unfold lenN in H; lia). cbn [firstn]. apply app_nil_r.
Qed.
Lemma equal_arpa l l' r r' pt : short l -> short l' -> parse_arpa_line sd l = Ok r -> suffix (c_str l) (r_gram r) = Ok pt -> parse_arpa_line sd l' = Ok r' ->
  equal_bytes (c_str l) (c_str l') pt (r_gram r') = Ok true -> by_suffix num_end l' l.
Proof.
  unfold short. intros L L' E P E' Q. apply parse_arpa_inv in E, E'. destruct E as (F1 & B1 & A1). destruct E' as (F2 & B2 & A2). destruct (r_gram r) as [b e]. destruct (r_gram r') as [b' e']. cbn [fst snd] in *.
  unfold suffix in P. cbn [fst snd] in P. apply bind_inv in P. destruct P as (p & E & P). injection P as <-. apply seek_inv in E. destruct E as (Lp & NB & SP). unfold c_space in *.
  pose proof (nthN_lt _ _ _ SP) as LP. unfold c_str in LP at 1. rewrite lenN_app, lenN_cons, lenN_nil in LP. unfold equal_bytes in Q. cbn [fst snd] in Q. rewrite (sub64_small e' b') in Q by (clear - L' B2; lia).
  destruct (N.lt_ge_cases p e) as [X|X].
  - rewrite sub64_small in Q by (clear - L B1 X; lia). destruct (N.eqb_spec (e - (p + 1)) (e' - b')) as [EL|]; [|discriminate]. apply memeq_inv in Q.
    exists (slice l b (e - b)), (slice l' b' (e' - b')). split; [exact A1|]. split; [exact A2|].
    assert (Q' : slice l (p + 1) (e - (p + 1)) = slice l' b' (e' - b')).
    { rewrite <- (slice_c_str l) by lia. rewrite <- (slice_c_str l') by lia. unfold slice. rewrite <- EL. exact Q. }
    rewrite <- Q'. exists (slice l b (p - b)). split.
    + unfold slice. intros I. apply In_nth in I. destruct I as (i & I). rewrite nth_firstn in I. destruct (N.ltb_spec i (p - b)) as [Hi|]; [|discriminate]. rewrite nth_skipn in I.
      apply (NB (b + i)); [lia|]. rewrite nth_c_str by lia. exact I.
    + rewrite nth_c_str in SP by lia. unfold slice. pose proof (skipn_at l p 32 SP) as SK.
      replace (skipn (N.to_nat b) l) with (firstn (N.to_nat (p - b)) (skipn (N.to_nat b) l) ++ 32 :: skipn (N.to_nat (p + 1)) l) at 1.
      2: { rewrite <- SK. rewrite <- (firstn_skipn (N.to_nat (p - b)) (skipn (N.to_nat b) l)) at 2. f_equal. rewrite skipn_skipn'. f_equal. lia. }
      assert (LF : length (firstn (N.to_nat (p - b)) (skipn (N.to_nat b) l)) = N.to_nat (p - b)) by (rewrite firstn_length, skipn_length; unfold lenN in *; lia).
      rewrite firstn_app, LF. rewrite firstn_all2 by lia. f_equal. replace (N.to_nat (e - b) - N.to_nat (p - b))%nat with (S (N.to_nat (e - (p + 1)))) by lia. reflexivity.
  - exfalso. assert (Y : sub64 e (p + 1) = 2 ^ 64 - (p + 1 - e)).
    { unfold sub64. rewrite (w64_small e) by (clear - L B1; lia). rewrite (w64_small (p + 1)) by (clear - L LP; lia). rewrite w64_small by (clear - L LP X B1; lia). clear - L LP X B1. lia. }
    rewrite Y in Q. destruct (N.eqb_spec (2 ^ 64 - (p + 1 - e)) (e' - b')) as [EL|]; [|discriminate]. clear - EL L L' B1 B2 F1 LP X. change (2 ^ 64) with (2 * 2 ^ 63) in EL. lia.
Qed.
Lemma tp_advance_inv l r pt : short l -> parse_arpa_line sd l = Ok r -> suffix (c_str l) (r_gram r) = Ok pt ->
  forall prv ptrs pointer rest ptrs', Forall short prv -> tp_advance sd (c_str l) pt prv ptrs pointer = Ok (rest, ptrs') ->
  exists j, rest = skipn j prv /\ (rest = [] \/ exists l' rest', rest = l' :: rest' /\ by_suffix num_end l' l).
Proof.
  intros L E P. induction prv as [|l' prv IH]; intros ptrs pointer rest ptrs' HP A; cbn [tp_advance] in A.
  - injection A as <- _. exists 0%nat. split; [reflexivity|left; reflexivity].
  - apply Forall_cons_iff in HP. destruct HP as [L' HP]. apply bind_inv in A. destruct A as (r' & E' & A). apply bind_inv in A. destruct A as (b & Q & A). destruct b.
    + injection A as <- _. exists 0%nat. split; [reflexivity|right]. exists l', prv. split; [reflexivity|]. eapply equal_arpa; eauto.
    + apply bind_inv in A. destruct A as (z & _ & A). apply IH in A; [|exact HP]. destruct A as (j & -> & D). exists (S j). split; [reflexivity|exact D].
Qed.
End Arpa.
Lemma tp_step_inv env v arrays pb bb order mo remap s l s' : short l -> Forall short (pbs_prv s) -> tp_step env v arrays pb bb order mo remap s l = Ok s' ->
  exists j l' rest, pbs_prv s' = skipn j (pbs_prv s) /\ pbs_prv s' = l' :: rest /\ by_suffix (num_end (tp_sd env)) l' l.
Proof.
  intros L HP E. unfold tp_step in E. apply bind_inv in E. destruct E as (r & E1 & E). apply bind_inv in E. destruct E as (pt & E2 & E). apply bind_inv in E. destruct E as ((prv & ptrs) & E3 & E).
  destruct (tp_advance_inv (tp_sd env) l r pt L E1 E2 _ _ _ _ _ HP E3) as (j & A & D). destruct prv as [|l' rest]; [discriminate|]. destruct D as [D|(l1 & rest1 & D & B)]; [discriminate|]. injection D as <- <-.
  apply bind_inv in E. destruct E as ((id & w) & _ & E). apply bind_inv in E. destruct E as (id' & _ & E). do 4 (apply bind_inv in E; destruct E as (? & _ & E)).
  injection E as <-. cbn [pbs_prv]. exists j, l', rest. auto.
Qed.
Lemma tp_orders_checked env v pb bb remap secs order pq bq arrays arrays' : Forall (Forall short) secs ->
  foldM (tp_build_order env v pb bb remap secs order pq bq) (seqN 2 (N.to_nat (order - 1))) arrays = Ok arrays' ->
  forall k prv cur, k + 1 < order -> nthN secs k = Some prv -> nthN secs (k + 1) = Some cur -> continues (by_suffix (num_end (tp_sd env))) prv cur.
Proof.
  intros HF E k prv cur Hk Hp Hc. destruct (foldM_each _ _ _ _ E (k + 2)) as (a & b & EB). { apply in_seqN. lia. }
  unfold tp_build_order in EB. replace (k + 2 - 2) with k in EB by lia. replace (k + 2 - 1) with (k + 1) in EB by lia.
  apply bind_inv in EB. destruct EB as (p & E1 & EB). apply rd_inv in E1. rewrite Hp in E1. injection E1 as <-. apply bind_inv in EB. destruct EB as (c & E1 & EB). apply rd_inv in E1. rewrite Hc in E1. injection E1 as <-.
  apply bind_inv in EB. destruct EB as (sb & _ & EB). apply bind_inv in EB. destruct EB as ((ptrs & sb') & EN & _).
  unfold tp_ngrams in EN. apply bind_inv in EN. destruct EN as (z & _ & EN). apply bind_inv in EN. destruct EN as (s & EN & _).
  rewrite Forall_forall in HF. apply (fold_continues pbst _ pbs_prv (by_suffix (num_end (tp_sd env))) short) with (5 := EN).
  - intros s0 l s1 L HP X. eapply tp_step_inv; eauto.
  - apply HF. eapply nthN_In. exact Hp.
  - apply HF. eapply nthN_In. exact Hc.
  - reflexivity.
Qed.
Lemma tp_build_checked env secs order remap unk pq bq t : Forall (Forall short) secs -> tp_build env secs order remap unk pq bq = Ok t ->
  forall k prv cur, k + 1 < order -> nthN secs k = Some prv -> nthN secs (k + 1) = Some cur -> continues (by_suffix (num_end (tp_sd env))) prv cur.
Proof.
  intros HF E. unfold tp_build in E. do 2 (apply bind_inv in E; destruct E as (? & _ & E)). destruct (lenN secs <? order); [discriminate|]. apply bind_inv in E. destruct E as ((pb & bb) & _ & E). destruct (order <? lenN secs); [discriminate|].
  do 3 (apply bind_inv in E; destruct E as (? & _ & E)). apply bind_inv in E. destruct E as (arrays & E & _). eapply tp_orders_checked; eauto.
Qed.
Lemma tp_build_file_checked env data order remap unk pq bq t : tp_build_file env data order remap unk pq bq = Ok t ->
  exists pb bb secs, ap_load (tp_penv env) data order pq bq = Ok (pb, bb, secs) /\ (Forall (Forall short) secs ->
  forall k prv cur, k + 1 < order -> nthN secs k = Some prv -> nthN secs (k + 1) = Some cur -> continues (by_suffix (num_end (tp_sd env))) prv cur).
Proof.
  intros E. unfold tp_build_file in E. do 2 (apply bind_inv in E; destruct E as (? & _ & E)). apply bind_inv in E. destruct E as (((pb & bb) & secs) & EL & E). exists pb, bb, secs. split; [exact EL|]. intros HF.
  do 3 (apply bind_inv in E; destruct E as (? & _ & E)). apply bind_inv in E. destruct E as (arrays & E & _). eapply tp_orders_checked; eauto.
Qed.
Import M_TrieProbPef.
Lemma qp_step_inv env v pb bb order mo remap s l s' : short l -> Forall short (pbs_prv (fst s)) -> qp_step env v pb bb order mo remap s l = Ok s' ->
  exists j l' rest, pbs_prv (fst s') = skipn j (pbs_prv (fst s)) /\ pbs_prv (fst s') = l' :: rest /\ by_suffix (num_end (tp_sd (qe_t env))) l' l.
Proof.
  destruct s as [s arr]. cbn [fst]. intros L HP E. unfold qp_step in E. apply bind_inv in E. destruct E as (r & E1 & E). apply bind_inv in E. destruct E as (pt & E2 & E). apply bind_inv in E. destruct E as ((prv & ptrs) & E3 & E).
  destruct (tp_advance_inv _ l r pt L E1 E2 _ _ _ _ _ HP E3) as (j & A & D). destruct prv as [|l' rest]; [discriminate|]. destruct D as [D|(l1 & rest1 & D & B)]; [discriminate|]. injection D as <- <-.
  apply bind_inv in E. destruct E as ((id & w) & _ & E). apply bind_inv in E. destruct E as ((id' & arr') & _ & E). do 4 (apply bind_inv in E; destruct E as (? & _ & E)).
  injection E as <-. cbn [pbs_prv fst]. exists j, l', rest. auto.
Qed.
Lemma qp_build_file_checked env data order remap unk pq bq t : qp_build_file env data order remap unk pq bq = Ok t ->
  exists pb bb secs, ap_load (tp_penv (qe_t env)) data order pq bq = Ok (pb, bb, secs) /\ (Forall (Forall short) secs ->
  forall k prv cur, k + 1 < order -> nthN secs k = Some prv -> nthN secs (k + 1) = Some cur -> continues (by_suffix (num_end (tp_sd (qe_t env)))) prv cur).
Proof.
  intros E. unfold qp_build_file in E. do 2 (apply bind_inv in E; destruct E as (? & _ & E)). apply bind_inv in E. destruct E as (((pb & bb) & secs) & EL & E). exists pb, bb, secs. split; [exact EL|]. intros HF k prv cur Hk Hp Hc.
  do 3 (apply bind_inv in E; destruct E as (? & _ & E)). apply bind_inv in E. destruct E as ((arrays & rks) & E & _). destruct (foldM_each _ _ _ _ E (k + 2)) as (a & b & EB). { apply in_seqN. lia. }
  unfold qp_build_order in EB. destruct a as [arr rk]. replace (k + 2 - 2) with k in EB by lia. replace (k + 2 - 1) with (k + 1) in EB by lia.
  apply bind_inv in EB. destruct EB as (p & E1 & EB). apply rd_inv in E1. rewrite Hp in E1. injection E1 as <-. apply bind_inv in EB. destruct EB as (c & E1 & EB). apply rd_inv in E1. rewrite Hc in E1. injection E1 as <-.
  apply bind_inv in EB. destruct EB as (sb & _ & EB). apply bind_inv in EB. destruct EB as (((ptrs & sb') & arr') & EN & _).
  unfold qp_ngrams in EN. apply bind_inv in EN. destruct EN as (z & _ & EN). apply bind_inv in EN. destruct EN as (s & EN & _).
  rewrite Forall_forall in HF. apply (fold_continues (pbst * list M_TriePef.parr) _ (fun s => pbs_prv (fst s)) (by_suffix (num_end (tp_sd (qe_t env)))) short) with (5 := EN).
  - intros s0 l s1 L HP X. eapply qp_step_inv; eauto.
  - apply HF. eapply nthN_In. exact Hp.
  - apply HF. eapply nthN_In. exact Hc.
  - reflexivity.
Qed.
