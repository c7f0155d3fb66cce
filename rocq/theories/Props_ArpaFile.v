(** * C40: reading ARPA files, and the models built from the bytes of the file *)
From Coq Require Import Floats.SpecFloat.
From Verif Require Import Prelude BitFacts M_Word Spec M_Text P_Text P_Text2 M_Pool M_Trie Spec_Trie M_Score Spec_Katz P_Score1 P_Score2 P_Score3 Props_Score M_Quant P_Quant M_MphProb Spec_Arpa
  P_Sentence P_Values P_MphProb Props_MphProb M_TrieProb P_TrieProb1 P_TrieProb2 P_TrieProb3 P_TrieProb4 Props_TrieProb P_SeqColl P_Trie4 M_ArpaFile Spec_ArpaFile P_ArpaFile.
From Coq Require Import Permutation.

(** ** the header *)
(** the counts read in the header of an ARPA text are the lengths of its sections *)
Theorem C40_header : forall data secs, arpa_text data secs ->
  exists a, ap_read_header (ap_open data) = Ok (map lenN secs, a).
Proof.
  intros data secs AT. destruct secs as [|s rest]; [destruct AT as (? & ? & ? & ? & _ & _ & L & _); change (lenN (@nil (list (list N)))) with 0 in L; lia|].
  destruct (open_ok data s rest AT) as (tail & a & K & _). exists a. exact K.
Qed.
(** conversely, a header that is accepted has the expected form and the counts are those written in it *)
Theorem C40_header_sound : forall data counts a, lenN data < 2 ^ 32 - 2 -> ap_read_header (ap_open data) = Ok (counts, a) ->
  exists n rest, counts <> [] /\ data = text_of (blanks n ++ [[92; 100; 97; 116; 97; 92]] ++ count_lines 1 counts ++ [[]]) ++ rest.
Proof. intros data counts a. exact (header_inv data counts a). Qed.

(** ** the sections *)
(** read_values for the orders i, i+1, ... with the given numbers of lines *)
Fixpoint reads (sd : list N -> N -> spec_float * N) (a : aps) (i : N) (counts : list N) : res (list (list spec_float * list spec_float) * aps) :=
  match counts with
  | [] => Ok ([], a)
  | n :: ns => ' (p, b, a) <- ap_read_values sd a i n ;; ' (r, a) <- reads sd a (i + 1) ns ;; Ok ((p, b) :: r, a)
  end.
(** the values of the entries of the orders i, i+1, ...: the probabilities, and the back-offs, those equal to
    zero being left out above order 1 *)
Fixpoint values_of (i : N) (D : entries) : list (list spec_float * list spec_float) :=
  match D with
  | [] => []
  | l :: D => (map (fun e => fst (snd e)) l,
               if i =? 1 then map (fun e => snd (snd e)) l else filter (fun b => negb (is_zero b)) (map (fun e => snd (snd e)) l)) :: values_of (i + 1) D
  end.

Lemma read_values_gen sd ord l ls : Forall2 (arpa_line sd) l ls -> (forall e, In e l -> ~ In 9 (join (fst e))) ->
  read_values sd ord ls = Ok (map (fun e => fst (snd e)) l, if ord =? 1 then map (fun e => snd (snd e)) l else filter (fun b => negb (is_zero b)) (map (fun e => snd (snd e)) l)).
Proof.
  intros F2 NT. unfold read_values.
  assert (G : forall l0 ls0, Forall2 (arpa_line sd) l0 ls0 -> incl l0 l -> forall ps bs,
    foldM (fun pb x => r <- parse_arpa_line sd x ;; Ok (fst pb ++ [r_prob r], if (ord =? 1) || ftrue (r_backoff r) then snd pb ++ [r_backoff r] else snd pb)) ls0 (ps, bs)
    = Ok (ps ++ map (fun e => fst (snd e)) l0, bs ++ if ord =? 1 then map (fun e => snd (snd e)) l0 else filter (fun b => negb (is_zero b)) (map (fun e => snd (snd e)) l0))).
  { intros l0 ls0 H. induction H as [|e x l0 ls0 He H IH]; intros I ps bs.
    - cbn. destruct (ord =? 1); rewrite !app_nil_r; reflexivity.
    - cbn [foldM map filter]. destruct (parse_arpa_ok sd e x) as (r & E & _ & P1 & P2); [apply NT, I; left; reflexivity|exact He|].
      rewrite E. cbn [bind fst snd]. rewrite P1, P2. rewrite ftrue_zero. rewrite IH by (intros y Hy; apply I; right; exact Hy). rewrite <- !app_assoc.
      destruct (ord =? 1); cbn [orb]; [rewrite <- app_assoc; reflexivity|]. destruct (is_zero (snd (snd e))); cbn [negb]; rewrite <- ?app_assoc; reflexivity. }
  apply (G l ls F2 (incl_refl _) [] []).
Qed.

(** the values read from the sections, one order after the other, are those written on their lines, and
    the end of the file is recognized *)
Theorem C40_values : forall data D secs sd, arpa_text data secs -> Forall2 (Forall2 (arpa_line sd)) D secs ->
  (forall l e, In l D -> In e l -> ~ In 9 (join (fst e))) ->
  exists a a' a'', ap_read_header (ap_open data) = Ok (map lenN secs, a) /\
    reads sd a 1 (map lenN secs) = Ok (values_of 1 D, a') /\ ap_parse_eof a' = Ok a''.
Proof.
  intros data D secs sd AT F2 NT. destruct secs as [|s rest]; [destruct AT as (? & ? & ? & ? & _ & _ & L & _); change (lenN (@nil (list (list N)))) with 0 in L; lia|].
  destruct (open_ok data s rest AT) as (tail & a & K & R & _ & _ & _ & _ & TL & LS & NL & _).
  assert (G : forall sx D i a, Forall2 (Forall2 (arpa_line sd)) D sx -> (forall l e, In l D -> In e l -> ~ In 9 (join (fst e))) -> Forall (Forall (fun l => ~ In 10 l)) sx ->
    i + lenN sx < 2 ^ 64 -> match sx with [] => after data tail a i [] | s :: r => ready data tail a i s r end ->
    exists a', reads sd a i (map lenN sx) = Ok (values_of i D, a') /\ after data tail a' (i + lenN sx) []).
  { clear - sd. induction sx as [|s sx IH]; intros D i a F2 NT NL LI R; inversion F2 as [|l s' D' sx' F1 F2' E1 E2]; [exists a; split; [reflexivity|rewrite N.add_0_r; exact R]|].
    rewrite lenN_cons in LI. destruct (values_step data tail sd a i s sx ltac:(lia) R (Forall_inv NL)) as (a1 & off & EQ & AF & _).
    destruct (IH D' (i + 1) a1 F2') as (a' & K & AF'); [intros l0 e HI; apply NT; rewrite <- E1; right; exact HI|exact (Forall_inv_tail NL)|lia|destruct sx; [exact AF|apply after_ready; [lia|exact AF]]|].
    exists a'. cbn [map reads values_of]. rewrite EQ, (read_values_gen sd i l s F1) by (intros e HI; apply (NT l); [rewrite <- E1; left; reflexivity|exact HI]). cbn [bind]. rewrite K. split; [reflexivity|].
    rewrite lenN_cons. replace (i + (1 + lenN sx)) with (i + 1 + lenN sx) by lia. exact AF'. }
  destruct (G (s :: rest) D 1 a F2 NT NL) as (a' & KR & AF); [assert (300 < 2 ^ 64) by reflexivity; lia|exact R|].
  pose proof (eof_after data tail a' _ [] AF (fun _ => TL)) as EE. cbv beta iota in EE. destruct EE as (a'' & E'' & _); [assert (300 < 2 ^ 64) by reflexivity; lia|].
  exists a, a', a''. split; [exact K|]. split; [exact KR|exact E''].
Qed.

(** an iterator at the position recorded for an order yields the lines of its section and then a blank line;
    the positions recorded are those of the sections *)
Theorem C40_iterator : forall data secs sd, arpa_text data secs ->
  (forall ls, In ls secs -> forall ord, exists x, read_values sd ord ls = Ok x) ->
  exists a vs a', ap_read_header (ap_open data) = Ok (map lenN secs, a) /\ reads sd a 1 (map lenN secs) = Ok (vs, a') /\ lenN (ap_offs a') = lenN secs /\
    forall k s off, nthN secs k = Some s -> nthN (ap_offs a') k = Some off ->
    exists it it', ait_open data (k + 1) off = Ok (lenN s, it) /\ ait_lines (length s) it = (s, it') /\ fst (ait_line it') = [].
Proof.
  intros data secs sd AT RV. destruct secs as [|s rest]; [destruct AT as (? & ? & ? & ? & _ & _ & L & _); change (lenN (@nil (list (list N)))) with 0 in L; lia|].
  destruct (open_ok data s rest AT) as (tail & a & K & R & O & _ & _ & _ & TL & LS & NL & _).
  assert (G : forall sx i a, (forall ls, In ls sx -> forall ord, exists x, read_values sd ord ls = Ok x) -> Forall (Forall (fun l => ~ In 10 l)) sx ->
    i + lenN sx < 2 ^ 64 -> match sx with [] => True | s :: r => ready data tail a i s r end ->
    exists vs a' offs, reads sd a i (map lenN sx) = Ok (vs, a') /\ ap_offs a' = ap_offs a ++ offs /\
      Forall2 (fun off s => off <= lenN data /\ exists post, skipn (N.to_nat off) data = text_of s ++ 10 :: post) offs sx).
  { clear - sd. induction sx as [|s sx IH]; intros i a RV NL LI R; [exists [], a, []; split; [reflexivity|split; [rewrite app_nil_r; reflexivity|constructor]]|].
    rewrite lenN_cons in LI. destruct (values_step data tail sd a i s sx ltac:(lia) R (Forall_inv NL)) as (a1 & off & EQ & AF & O1 & _ & B & SK).
    destruct (IH (i + 1) a1) as (vs & a' & offs & KK & OO & F2); [intros ls H; apply RV; right; exact H|exact (Forall_inv_tail NL)|lia|destruct sx; [exact I|apply after_ready; [lia|exact AF]]|].
    destruct (RV s (or_introl eq_refl) i) as ([p b] & EV). exists ((p, b) :: vs), a', (off :: offs). cbn [map reads]. rewrite EQ, EV. cbn [bind]. rewrite KK. split; [reflexivity|].
    split; [rewrite OO, O1, <- app_assoc; reflexivity|]. constructor; [split; [exact B|exact SK]|exact F2]. }
  destruct (G (s :: rest) 1 a RV NL) as (vs & a' & offs & KR & OO & F2); [assert (300 < 2 ^ 64) by reflexivity; lia|exact R|].
  rewrite O in OO. cbn [app] in OO. exists a, vs, a'. split; [exact K|]. split; [exact KR|]. rewrite OO. split; [unfold lenN; rewrite (Forall2_len _ _ _ F2); reflexivity|].
  intros k s' off Hs Ho. assert (X : off <= lenN data /\ exists post, skipn (N.to_nat off) data = text_of s' ++ 10 :: post).
  { exact (P_Trie4.Forall2_nthN _ _ _ k off s' F2 Ho Hs). }
  destruct X as (B & post & SK). destruct (section_ok data _ k s' off post AT Hs B SK) as (n & it & it' & E1 & -> & E2 & E3). exists it, it'. auto.
Qed.

(** ** building from the file *)
(** the hash model built from the bytes of the file is the one built from the lines of its sections *)
Theorem C40_mph_from_file : forall data secs env order unk pq bq, arpa_text data secs ->
  mp_build_file env data order unk pq bq = mp_build env secs order unk pq bq.
Proof.
  intros data secs env order unk pq bq AT. unfold mp_build_file, mp_build. destruct (check_order order) as [u| |] eqn:CO; cbn [bind]; [|reflexivity|reflexivity].
  assert (1 <= order). { unfold check_order, u8 in CO. destruct (N.eq_dec order 0) as [->|]; [discriminate|lia]. }
  rewrite (load_ok env data secs order pq bq AT) by assumption. destruct (lenN secs <? order); [reflexivity|].
  destruct (mp_values env secs order pq bq) as [[pb bb]| |]; cbn [bind]; [|reflexivity|reflexivity]. destruct (order <? lenN secs); reflexivity.
Qed.
(** so is the trie *)
Theorem C40_trie_from_file : forall data secs env order remap unk pq bq, arpa_text data secs ->
  tp_build_file env data order remap unk pq bq = tp_build env secs order remap unk pq bq.
Proof.
  intros data secs env order remap unk pq bq AT. unfold tp_build_file, tp_build. destruct (check_order order) as [u| |] eqn:CO; cbn [bind]; [|reflexivity|reflexivity].
  destruct (check_remapping_order remap) as [u'| |]; cbn [bind]; [|reflexivity|reflexivity].
  assert (1 <= order). { unfold check_order, u8 in CO. destruct (N.eq_dec order 0) as [->|]; [discriminate|lia]. }
  rewrite (load_ok (tp_penv env) data secs order pq bq AT) by assumption. destruct (lenN secs <? order); [reflexivity|].
  destruct (mp_values (tp_penv env) secs order pq bq) as [[pb bb]| |]; cbn [bind]; [|reflexivity|reflexivity]. destruct (order <? lenN secs); reflexivity.
Qed.
(** an order that is not that of the file is refused *)
Theorem C40_order_refused : forall data secs env order unk pq bq m, arpa_text data secs ->
  mp_build_file env data order unk pq bq = Ok m -> order = lenN secs.
Proof.
  intros data secs env order unk pq bq m AT H. rewrite (C40_mph_from_file data secs) in H by exact AT. unfold mp_build in H.
  destruct (check_order order); cbn [bind] in H; try discriminate. destruct (N.ltb_spec (lenN secs) order) as [X|X]; [discriminate|].
  destruct (mp_values env secs order pq bq) as [[pb bb]| |]; cbn [bind] in H; try discriminate. destruct (N.ltb_spec order (lenN secs)) as [Y|Y]; [discriminate|]. lia.
Qed.

(** ** C25, from the bytes of the file to the scores *)
Theorem C25_mph_file_partial : forall data D secs env pq bq unk, arpa_text data secs -> arpa_file D -> prob_inputs_ok D secs env pq bq ->
  exists m qp qb, mp_build_file env data (lenN D) unk pq bq = Ok m /\
    (* the quantizer: the centre of the rank chosen for the value *)
    (forall ord x, 2 <= ord <= lenN D -> exists r, q_rank (mp_probs m) (ord - 2) x 0 = Ok r /\ r < 2 ^ pq /\ q_access (mp_probs m) (ord - 2) r = Ok (qp ord x)) /\
    (forall ord x, 2 <= ord < lenN D -> exists r, q_rank (mp_backoffs m) (ord - 2) x 1 = Ok r /\ r < 2 ^ bq /\ q_access (mp_backoffs m) (ord - 2) r = Ok (qb ord x)) /\
    (closed (entry D) -> extended_nonzero (quantized D qp qb) ->
     forall buf p ws s0 hist s s1, holds_text buf (p, p + lenN (join ws)) (join ws) -> lenN ws < 2 ^ 62 ->
     (forall a g c, ws = a ++ g ++ c -> 1 <= lenN g <= lenN D -> entry D g = None -> distinguished D env m g) ->
     mp_state m = Ok s0 -> foldM (mp_op env m) hist s0 = Ok s -> ps_init s = Ok s1 ->
     exists out s2, mp_sentence env m buf s1 (word_ranges p ws) = Ok (out, s2) /\
       Forall2 feq (map fst out) (katz_scores (quantized D qp qb) (unk_prob D unk) (N.to_nat (lenN D)) ws) /\
       map snd out = map (fun w => match entry D [w] with Some _ => false | None => true end) ws /\
       ps_oovs s2 = lenN (filter (fun w => match entry D [w] with Some _ => false | None => true end) ws) /\
       (* the state keeps the longest listed context with a non-zero back-off *)
       ps_length s2 <= lenN D - 1 /\
       (forall j p b, ps_length s2 < j -> (N.to_nat j <= N.to_nat (lenN D) - 1)%nat -> j <= lenN ws -> quantized D qp qb (lastn (N.to_nat j) ws) = Some (p, b) -> is_zero b = true) /\
       (0 < ps_length s2 -> exists p b, quantized D qp qb (lastn (N.to_nat (ps_length s2)) ws) = Some (p, b) /\ is_zero b = false)).
Proof.
  intros data D secs env pq bq unk AT AF PI. rewrite (C40_mph_from_file data secs env (lenN D) unk pq bq AT). exact (C25_mph_katz_partial D secs env pq bq unk AF PI).
Qed.
Theorem C25_trie_file_partial : forall data D secs env remap pq bq unk, arpa_text data secs -> arpa_file D -> collection (reversed D) remap -> trie_inputs_ok D secs env remap pq bq ->
  exists m qp qb, tp_build_file env data (lenN D) remap unk pq bq = Ok m /\
    (* the quantizer: the centre of the rank chosen for the value *)
    (forall ord x, 2 <= ord <= lenN D -> exists r, q_rank (tp_probs m) (ord - 2) x 0 = Ok r /\ r < 2 ^ pq /\ q_access (tp_probs m) (ord - 2) r = Ok (qp ord x)) /\
    (forall ord x, 2 <= ord < lenN D -> exists r, q_rank (tp_backoffs m) (ord - 2) x 1 = Ok r /\ r < 2 ^ bq /\ q_access (tp_backoffs m) (ord - 2) r = Ok (qb ord x)) /\
    (closed (entry D) -> extended_nonzero (quantized D qp qb) ->
     forall buf p ws s0 hist s s1, holds_text buf (p, p + lenN (join ws)) (join ws) -> lenN ws < 2 ^ 62 ->
     (forall w, In w ws -> entry D [w] = None -> word_distinguished D env m w) ->
     tp_state m = Ok s0 -> foldM (tp_op env m) hist s0 = Ok s -> ps_init s = Ok s1 ->
     exists out s2, tp_sentence env m buf s1 (word_ranges p ws) = Ok (out, s2) /\
       Forall2 feq (map fst out) (katz_scores (quantized D qp qb) (unk_prob D unk) (N.to_nat (lenN D)) ws) /\
       map snd out = map (fun w => match entry D [w] with Some _ => false | None => true end) ws /\
       ps_oovs s2 = lenN (filter (fun w => match entry D [w] with Some _ => false | None => true end) ws) /\
       (* the state keeps the longest listed context with a non-zero back-off *)
       ps_length s2 <= lenN D - 1 /\
       (forall j p b, ps_length s2 < j -> (N.to_nat j <= N.to_nat (lenN D) - 1)%nat -> j <= lenN ws -> quantized D qp qb (lastn (N.to_nat j) ws) = Some (p, b) -> is_zero b = true) /\
       (0 < ps_length s2 -> exists p b, quantized D qp qb (lastn (N.to_nat (ps_length s2)) ws) = Some (p, b) /\ is_zero b = false)).
Proof.
  intros data D secs env remap pq bq unk AT AF CO TI. rewrite (C40_trie_from_file data secs env (lenN D) remap unk pq bq AT). exact (C25_trie_katz_partial D secs env remap pq bq unk AF CO TI).
Qed.

(** ** an instance: the file of the examples of C25, with a blank line at the start and two blank lines between sections *)
Definition exfile (z : N) : list N :=
  text_of ([[]] ++ [[92; 100; 97; 116; 97; 92]] ++ count_lines 1 (map lenN (exsecs z)) ++ [[]; []] ++ section_lines 1 (exsecs z) [1%nat; 0%nat]) ++ [92; 101; 110; 100; 92; 10].
Example C40_ex_text : arpa_text (exfile 3) (exsecs 3).
Proof.
  exists 1%nat, 1%nat, [1%nat; 0%nat], [10]. split; [reflexivity|]. split; [right; exists []; reflexivity|]. split; [vm_compute; split; [discriminate|reflexivity]|]. split; [|split].
  - assert (C : forallb (forallb (fun l => negb (existsb (fun c => c =? 10) l))) (exsecs 3) = true) by (vm_compute; reflexivity).
    apply Forall_forall. intros s Hs. apply Forall_forall. intros l Hl I. rewrite forallb_forall in C. specialize (C s Hs). rewrite forallb_forall in C. specialize (C l Hl).
    apply negb_true_iff in C. assert (existsb (fun c => c =? 10) l = true) by (apply existsb_exists; exists 10; split; [exact I|reflexivity]). congruence.
  - vm_compute. reflexivity.
  - apply Forall_forall. intros s Hs. assert (C : forallb (fun s => lenN s <? 2 ^ 64) (exsecs 3) = true) by (vm_compute; reflexivity). rewrite forallb_forall in C. apply N.ltb_lt. exact (C s Hs).
Qed.
Example C40_ex_build : match mp_build_file (exenv 64) (exfile 3) 3 default_unk 2 2 with Ok _ => True | _ => False end.
Proof. vm_compute. exact I. Qed.
Example C40_ex_lower : mp_build_file (exenv 64) (exfile 3) 2 default_unk 2 2 = Throw.
Proof. vm_compute. reflexivity. Qed.

(** ** what does not hold *)
(** "\data\", then one count line per element, a blank line, and these lines *)
Definition small (counts : list N) (ls : list (list N)) : list N := text_of ([[92; 100; 97; 116; 97; 92]] ++ count_lines 1 counts ++ [[]] ++ ls).
(** "1<tab>a", "1<tab>b" *)
Definition la : list N := [49; 9; 97].
Definition lb : list N := [49; 9; 98].
Definition scan (data : list N) : res aps :=
  ' (counts, a) <- ap_read_header (ap_open data) ;; ' (_, a) <- reads exsd a 1 counts ;; ap_parse_eof a.
(** two blank lines before "\end\" make the reading abort, though blank lines are skipped everywhere else *)
Theorem C40_blank_before_end_refuted :
  (exists a, scan (small [2] [title 1; la; lb; []; t_end]) = Ok a) /\ scan (small [2] [title 1; la; lb; []; []; t_end]) = Throw /\
  (exists a, scan (small [1; 1] [title 1; la; []; []; title 2; lb; []; t_end]) = Ok a).
Proof. split; [eexists; vm_compute; reflexivity|]. split; [vm_compute; reflexivity|]. eexists; vm_compute; reflexivity. Qed.
(** a count smaller than the number of lines is not always noticed: the line is dropped *)
Theorem C40_dropped_line_refuted : exists a, scan (small [1] [title 1; la; lb; t_end]) = Ok a.
Proof. eexists. vm_compute. reflexivity. Qed.
(** a count larger than the number of lines: the blank line is parsed as an entry, past its end *)
Theorem C40_short_section_refuted : scan (small [3] [title 1; la; lb; []; t_end]) = UB.
Proof. vm_compute. reflexivity. Qed.
(** a header line without '=' is read past its end instead of being refused *)
Theorem C40_header_without_equals_refuted : ap_read_header (ap_open (text_of [t_data; la; []; title 1])) = UB.
Proof. vm_compute. reflexivity. Qed.
(** a file that ends in blank lines where more is expected is read for ever: no number of steps is enough *)
Theorem C40_endless_refuted : forall n fuel, ap_skip_fuel fuel (ap_open (text_of (blanks n))) = UB.
Proof.
  intros n fuel. assert (G : forall n fuel a, ap_line a = [] -> st (is_data (ap_is a)) a (text_of (blanks n)) -> ap_skip_fuel fuel a = UB).
  { clear. induction n as [|n IH]; intros fuel a L SS; (destruct fuel as [|f]; cbn [ap_skip_fuel]; rewrite L; [reflexivity|]).
    - destruct (read_line_inv _ a _ SS) as (a' & R & H). rewrite R. cbn [snd]. destruct H as [(p & E & _)|(E & _ & B)].
      + exfalso. cbn in E. destruct (ap_line a'); discriminate E.
      + apply skip_bad; [exact B|rewrite E; reflexivity].
    - change (blanks (S n)) with ([] :: blanks n : list (list N)) in SS. rewrite <- (app_nil_r (text_of _)), text_of_cons, app_nil_r in SS. cbn [app] in SS.
      destruct (read_line_ok _ a [] _ SS ltac:(intros [])) as (a' & R & S' & L' & _). rewrite R. cbn [snd]. apply IH; [exact L'|]. rewrite (st_data _ _ _ S'). exact S'. }
  apply (G n); [reflexivity|]. apply st_open.
Qed.
(** an iterator for an order beyond the file reads outside the counts before checking the order *)
Theorem C40_iterator_order_refuted : ait_open (small [1] [title 1; la; []; t_end]) 2 20 = UB.
Proof. vm_compute. reflexivity. Qed.

Print Assumptions C40_header.
Print Assumptions C40_header_sound.
Print Assumptions C40_values.
Print Assumptions C40_iterator.
Print Assumptions C40_mph_from_file.
Print Assumptions C40_trie_from_file.
Print Assumptions C40_order_refused.
Print Assumptions C25_mph_file_partial.
Print Assumptions C25_trie_file_partial.
Print Assumptions C40_endless_refuted.
