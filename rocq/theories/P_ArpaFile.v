(** * Proofs about the reading of ARPA files *)
From Coq Require Import Floats.SpecFloat.
From Verif Require Import Prelude BitFacts M_Word M_Text M_Pool M_Trie M_Score M_Quant M_MphProb M_TrieProb P_Text P_Text2 M_ArpaFile Spec_ArpaFile.

(** the stream of [a] is good, over [data], with [post] left to read *)
Definition st (data : list N) (a : aps) (post : list N) : Prop :=
  ap_is a = mkist data (is_pos (ap_is a)) false false /\ is_pos (ap_is a) <= lenN data /\
  skipn (N.to_nat (is_pos (ap_is a))) data = post.

Lemma until_nl_ok l post : ~ In 10 l -> until_nl (l ++ 10 :: post) = l.
Proof.
  induction l as [|c l IH]; intros H; cbn [app until_nl].
  - reflexivity.
  - destruct (N.eqb_spec c 10) as [->|E]; [exfalso; apply H; left; reflexivity|]. f_equal. apply IH. intros I. apply H. right. exact I.
Qed.
Lemma until_nl_end l : ~ In 10 l -> until_nl l = l.
Proof.
  induction l as [|c l IH]; intros H; cbn [until_nl]; [reflexivity|].
  destruct (N.eqb_spec c 10) as [->|E]; [exfalso; apply H; left; reflexivity|]. f_equal. apply IH. intros I. apply H. right. exact I.
Qed.

Lemma skipn_app_len {A} (l post : list A) : skipn (length l) (l ++ post) = post.
Proof. rewrite skipn_app, Nat.sub_diag, skipn_all. reflexivity. Qed.

Lemma read_line_ok data a l post : st data a (l ++ 10 :: post) -> ~ In 10 l ->
  exists a', ap_read_line a = (match l with [] => false | _ => true end, a') /\ st data a' post /\ ap_line a' = l /\ ap_offs a' = ap_offs a /\ ap_max a' = ap_max a.
Proof.
  intros (E & P & SS) H. unfold ap_read_line, getline. rewrite E. cbn [is_good is_eof is_fail is_pos is_data orb negb]. rewrite SS, until_nl_ok by exact H.
  assert (LEN : lenN (l ++ 10 :: post) = lenN l + 1 + lenN post) by (rewrite lenN_app, lenN_cons; lia).
  destruct (N.eqb_spec (lenN l) (lenN (l ++ 10 :: post))) as [X|X]; [exfalso; lia|].
  eexists. split; [reflexivity|]. split; [|cbn; auto]. set (p := is_pos (ap_is a)) in *.
  assert (LD : lenN data = p + lenN (l ++ 10 :: post)).
  { rewrite <- SS. unfold lenN in *. rewrite skipn_length. lia. }
  split; [reflexivity|]. cbn [ap_is is_pos]. split; [lia|].
  replace (N.to_nat (p + lenN l + 1)) with (N.to_nat p + S (length l))%nat by (unfold lenN; lia).
  rewrite <- skipn_skipn_, SS. replace (l ++ 10 :: post) with ((l ++ [10]) ++ post) by (rewrite <- app_assoc; reflexivity).
  replace (S (length l)) with (length (l ++ [10])) by (rewrite app_length; cbn; lia). apply skipn_app_len.
Qed.

(** reading the last line, without a newline *)
Lemma read_line_last data a l : st data a l -> ~ In 10 l -> exists a', ap_read_line a = (match l with [] => false | _ => true end, a') /\ ap_line a' = l /\ ap_offs a' = ap_offs a /\ ap_max a' = ap_max a.
Proof.
  intros (E & P & SS) H. unfold ap_read_line, getline. rewrite E. cbn [is_good is_eof is_fail is_pos is_data orb negb]. rewrite SS, until_nl_end by exact H.
  rewrite N.eqb_refl. eexists. split; [reflexivity|]. cbn. auto.
Qed.

Lemma st_data data a post : st data a post -> is_data (ap_is a) = data.
Proof. intros (E & _). rewrite E. reflexivity. Qed.
Lemma st_len data a post : st data a post -> (length post <= length data)%nat.
Proof. intros (_ & P & SS). rewrite <- SS, skipn_length. lia. Qed.

Lemma text_of_cons l ls post : text_of (l :: ls) ++ post = l ++ 10 :: text_of ls ++ post.
Proof. unfold text_of. cbn [map concat]. rewrite <- !app_assoc. reflexivity. Qed.
Lemma text_of_app l ls : text_of (l ++ ls) = text_of l ++ text_of ls.
Proof. unfold text_of. rewrite map_app, concat_app. reflexivity. Qed.
Lemma text_of_len ls : (length ls <= length (text_of ls))%nat.
Proof. induction ls as [|l ls IH]; [reflexivity|]. unfold text_of in *. cbn [map concat length]. rewrite !app_length. cbn [length]. lia. Qed.

(** with an empty current line: the blank lines are skipped, a non-empty one becomes current *)
Lemma skip_fuel_ok data : forall n fuel a l post, (n < fuel)%nat -> ap_line a = [] -> l <> [] -> ~ In 10 l -> st data a (text_of (blanks n ++ [l]) ++ post) ->
  exists a', ap_skip_fuel fuel a = Ok a' /\ st data a' post /\ ap_line a' = l /\ ap_offs a' = ap_offs a /\ ap_max a' = ap_max a.
Proof.
  induction n as [|n IH]; intros fuel a l post Hf EL NE NI SS; (destruct fuel as [|fuel]; [lia|]).
  - cbn [blanks repeat app]  in SS. rewrite text_of_cons  in SS. destruct (read_line_ok _ _ _ _ SS NI) as (a' & R & S' & L' & O' & M').
    exists a'. cbn [ap_skip_fuel]. rewrite EL, R. cbn [snd]. destruct l as [|c l]; [congruence|].
    split; [destruct fuel; cbn [ap_skip_fuel]; rewrite L'; reflexivity|]. auto.
  - change (blanks (S n)) with ([] :: blanks n : list (list N))  in SS. cbn [app]  in SS. rewrite text_of_cons  in SS. cbn [app]  in SS.
    destruct (read_line_ok data a [] _ SS) as (a' & R & S' & L' & O' & M'); [intros []|].
    destruct (IH fuel a' l post) as (a2 & K & S2 & L2 & O2 & M2); [lia|exact L'|exact NE|exact NI|exact S'|].
    exists a2. cbn [ap_skip_fuel]. rewrite EL, R. cbn [snd]. rewrite K, O2, M2, O', M'. auto.
Qed.
Lemma skip_ok data n a l post : ap_line a = [] -> l <> [] -> ~ In 10 l -> st data a (text_of (blanks n ++ [l]) ++ post) ->
  exists a', ap_skip a = Ok a' /\ st data a' post /\ ap_line a' = l /\ ap_offs a' = ap_offs a /\ ap_max a' = ap_max a.
Proof.
  intros EL NE NI SS. unfold ap_skip. apply (skip_fuel_ok data n); auto. rewrite (st_data _ _ _ SS).
  pose proof (st_len _ _ _ SS) as L. rewrite app_length in L. pose proof (text_of_len (blanks n ++ [l])) as T. rewrite app_length in T. unfold blanks in *. rewrite repeat_length in T. lia.
Qed.
Lemma skip_nothing a : ap_line a <> [] -> ap_skip a = Ok a.
Proof. unfold ap_skip. cbn [ap_skip_fuel]. destruct (ap_line a); [congruence|reflexivity]. Qed.

Lemma expect_ok a s : ap_line a = s -> ap_expect a s = Ok tt.
Proof. intros E. unfold ap_expect. destruct (list_eq_dec N.eq_dec (ap_line a) s); [reflexivity|contradiction]. Qed.

(** decimal numbers *)
Lemma digits_no c n : n < 2 ^ 64 -> is_digit c = false -> ~ In c (to_string n).
Proof.
  intros Hn Hc I. destruct (to_string_ok n Hn) as (_ & _ & F). rewrite Forall_forall in F. rewrite (F c I) in Hc. discriminate.
Qed.

Definition cline (i c : N) : list N := t_ngram ++ to_string i ++ [61] ++ to_string c.
Lemma cline_parse i c : i < 2 ^ 32 -> c < 2 ^ 64 ->
  split_upon (cline i c) 61 = Ok (0, lenN (t_ngram ++ to_string i)) /\ strtoull (c_str (cline i c)) (lenN (t_ngram ++ to_string i) + 1) = Ok c /\
  cline i c <> [] /\ ~ In 10 (cline i c).
Proof.
  intros Hi Hc. assert (Hi' : i < 2 ^ 64) by (change (2 ^ 64) with (2 ^ 32 * 2 ^ 32); lia).
  destruct (to_string_ok c Hc) as (V & NE & F). split; [|split; [|split]].
  - unfold split_upon. pose proof (seek_ok 61 (t_ngram ++ to_string i)) as K.
    assert (NI : ~ In 61 (t_ngram ++ to_string i)).
    { rewrite in_app_iff. intros [I|I]; [cbn in I; repeat (destruct I as [I|I]; [discriminate|]); exact I|]. exact (digits_no 61 i Hi' eq_refl I). }
    specialize (K NI [] (to_string c ++ [0]) (S (length (c_str (cline i c))))).
    cbn [app] in K. change (lenN (@nil N)) with 0 in K.
    replace (c_str (cline i c)) with ((t_ngram ++ to_string i) ++ 61 :: to_string c ++ [0]) in * by (unfold c_str, cline; rewrite <- !app_assoc; reflexivity).
    rewrite K; [reflexivity|]. rewrite !app_length. cbn [length]. lia.
  - replace (c_str (cline i c)) with ((t_ngram ++ to_string i ++ [61]) ++ to_string c ++ 0 :: []) by (unfold c_str, cline; rewrite <- !app_assoc; reflexivity).
    replace (lenN (t_ngram ++ to_string i) + 1) with (lenN (t_ngram ++ to_string i ++ [61])) by (rewrite !lenN_app; change (lenN [61]) with 1; lia).
    rewrite strtoull_ok; [rewrite V; reflexivity|exact NE|exact F|reflexivity|rewrite V; exact Hc].
  - discriminate.
  - unfold cline. rewrite !in_app_iff. intros [I|[I|[I|I]]].
    + cbn in I; repeat (destruct I as [I|I]; [discriminate|]); exact I.
    + exact (digits_no 10 i Hi' eq_refl I).
    + destruct I as [I|[]]; discriminate.
    + exact (digits_no 10 c Hc eq_refl I).
Qed.

Lemma counts_ok data : forall cs fuel a i c acc post, (length cs < fuel)%nat -> i + lenN cs + 1 < 2 ^ 32 -> Forall (fun c => c < 2 ^ 64) (c :: cs) ->
  ap_line a = cline i c -> st data a (text_of (count_lines (i + 1) cs) ++ 10 :: post) ->
  exists a', ap_counts fuel a i acc = Ok (acc ++ c :: cs, a') /\ st data a' post /\ ap_line a' = [] /\ ap_offs a' = ap_offs a /\ ap_max a' = ap_max a.
Proof.
  induction cs as [|c2 cs IH]; intros fuel a i c acc post Hf Hi F EL SS; (destruct fuel as [|fuel]; [lia|]); cbn [ap_counts]; rewrite EL;
    destruct (cline_parse i c ltac:(lia) (Forall_inv F)) as (P1 & P2 & P3 & P4);
    rewrite P1; cbn [bind snd]; rewrite P2; cbn [bind]; rewrite expect_ok by (exact EL); cbn [bind].
  - cbn [count_lines text_of map concat app] in SS. destruct (read_line_ok data a [] post SS) as (a' & R & S' & L' & O' & M'); [intros []|].
    rewrite R. exists a'. auto.
  - cbn [count_lines] in SS. rewrite text_of_cons in SS.
    assert (X : c2 < 2 ^ 64) by exact (Forall_inv (Forall_inv_tail F)). rewrite lenN_cons in Hi.
    destruct (cline_parse (i + 1) c2) as (_ & _ & N2 & NI2); [lia|exact X|].
    destruct (read_line_ok data a _ _ SS NI2) as (a' & R & S' & L' & O' & M').
    rewrite R. replace (match [110; 103; 114; 97; 109; 32] ++ decimal (i + 1) ++ [61] ++ decimal c2 with [] => false | _ :: _ => true end) with true by reflexivity.
    rewrite N.mod_small by lia.
    destruct (IH fuel a' (i + 1) c2 (acc ++ [c]) post) as (a2 & K & S2 & L2 & O2 & M2); [cbn [length] in Hf; lia|lia|exact (Forall_inv_tail F)|exact L'|exact S'|].
    exists a2. rewrite K, <- app_assoc, O2, M2, O', M'. auto.
Qed.

Lemma title_ok i : i < 2 ^ 64 -> title i <> [] /\ ~ In 10 (title i) /\ title i = [92] ++ to_string i ++ t_grams.
Proof.
  intros H. split; [discriminate|]. split; [|reflexivity]. unfold title. rewrite !in_app_iff. intros [I|[I|I]].
  - destruct I as [I|[]]; discriminate.
  - exact (digits_no 10 i H eq_refl I).
  - cbn in I; repeat (destruct I as [I|I]; [discriminate|]); exact I.
Qed.
Lemma text_of_blanks_app n l post : text_of (blanks n ++ [l]) ++ post = text_of (blanks n) ++ l ++ 10 :: post.
Proof. rewrite text_of_app, <- app_assoc. f_equal. rewrite <- (app_nil_l post) at 1. rewrite text_of_cons. reflexivity. Qed.

Lemma st_open data : st data (ap_open data) data.
Proof. split; [reflexivity|]. split; [cbn; lia|reflexivity]. Qed.
Lemma st_with data a post l offs m : st data a post -> st data (mkaps (ap_is a) l offs m) post.
Proof. intros H. exact H. Qed.

Lemma header_ok data b0 b1 counts l post : counts <> [] -> lenN counts < 256 -> Forall (fun c => c < 2 ^ 64) counts -> l <> [] -> ~ In 10 l ->
  data = text_of (blanks b0 ++ [t_data] ++ count_lines 1 counts ++ blanks (S b1) ++ [l]) ++ post ->
  exists a, ap_read_header (ap_open data) = Ok (counts, a) /\ st data a post /\ ap_line a = l /\ ap_offs a = [] /\ ap_max a = lenN counts.
Proof.
  intros NE LC F NL NI ED. unfold ap_read_header.
  pose proof (st_open data) as SO. rewrite ED in SO at 3. rewrite app_assoc, text_of_app, <- app_assoc in SO.
  destruct (skip_ok data b0 (ap_open data) t_data _ eq_refl ltac:(discriminate) ltac:(intros I; cbn in I; repeat (destruct I as [I|I]; [discriminate|]); exact I) SO) as (a1 & K1 & S1 & L1 & O1 & M1).
  rewrite K1. cbn [bind]. rewrite expect_ok by exact L1. cbn [bind].
  destruct counts as [|c cs]; [congruence|]. cbn [count_lines app] in S1. rewrite text_of_cons in S1.
  rewrite lenN_cons in LC. assert (X : 256 < 2 ^ 32) by reflexivity.
  destruct (cline_parse 1 c ltac:(lia) (Forall_inv F)) as (_ & _ & _ & NI1).
  destruct (read_line_ok data a1 (cline 1 c) _ S1 NI1) as (a2 & R2 & S2 & L2 & O2 & M2). rewrite R2.
  change (blanks (S b1)) with ([] :: blanks b1 : list (list N)) in S2. rewrite text_of_app, <- app_assoc in S2. cbn [app] in S2. rewrite text_of_cons in S2. cbn [app] in S2.
  destruct (counts_ok data cs (S (S (length (is_data (ap_is a2))))) a2 1 c [] (text_of (blanks b1 ++ [l]) ++ post)) as (a3 & K3 & S3 & L3 & O3 & M3); [|lia|exact F|exact L2|exact S2|].
  { rewrite (st_data _ _ _ S2). pose proof (st_len _ _ _ S2) as LL. rewrite app_length in LL. pose proof (text_of_len (count_lines (1 + 1) cs)) as T.
    assert (CL : forall cs i, length (count_lines i cs) = length cs) by (induction cs0 as [|? ? IH]; intros; cbn [count_lines length]; [reflexivity|rewrite IH; reflexivity]).
    rewrite CL in T. lia. }
  rewrite K3. cbn [bind app]. set (a3' := mkaps (ap_is a3) (ap_line a3) (ap_offs a3) (lenN (c :: cs) mod 256)).
  destruct (skip_ok data b1 a3' l post L3 NL NI S3) as (a4 & K4 & S4 & L4 & O4 & M4). rewrite K4. cbn [bind].
  exists a4. split; [reflexivity|]. split; [exact S4|]. split; [exact L4|]. split; [rewrite O4; cbn; rewrite O3, O2, O1; reflexivity|].
  rewrite M4. cbn [a3' ap_max]. rewrite N.mod_small; [reflexivity|]. rewrite lenN_cons. lia.
Qed.

(** the loop of read_values *)
Lemma values_loop data sd order : forall sec a post, st data a (text_of sec ++ post) -> Forall (fun l => ~ In 10 l) sec ->
  exists a', st data a' post /\ ap_offs a' = ap_offs a /\ ap_max a' = ap_max a /\
    forall p0 b0, foldM (fun st0 (_ : unit) =>
      let '(probs, backoffs, a) := st0 in
      let '(_, a) := ap_read_line a in
      r <- parse_arpa_line sd (ap_line a) ;;
      Ok (probs ++ [r_prob r], if (order =? 1) || ftrue (r_backoff r) then backoffs ++ [r_backoff r] else backoffs, a)) (repeat tt (length sec)) (p0, b0, a) =
    (' (p, b) <- foldM (fun pb l =>
           r <- parse_arpa_line sd l ;;
           Ok (fst pb ++ [r_prob r],
               if (order =? 1) || ftrue (r_backoff r) then snd pb ++ [r_backoff r] else snd pb)) sec (p0, b0) ;; Ok (p, b, a')).
Proof.
  induction sec as [|l sec IH]; intros a post SS F.
  - exists a. cbn in SS. split; [exact SS|]. split; [reflexivity|]. split; [reflexivity|]. intros. reflexivity.
  - rewrite text_of_cons in SS. destruct (read_line_ok data a l _ SS (Forall_inv F)) as (a1 & R1 & S1 & L1 & O1 & M1).
    destruct (IH a1 post S1 (Forall_inv_tail F)) as (a' & S' & O' & M' & EQ). exists a'. split; [exact S'|]. split; [congruence|]. split; [congruence|].
    intros p0 b0. cbn [length repeat foldM]. rewrite R1, L1. destruct (parse_arpa_line sd l) as [r| |]; cbn [bind fst snd]; [|reflexivity|reflexivity].
    rewrite EQ. reflexivity.
Qed.

Lemma read_values_file data sd a a1 i sec post : ap_skip a = Ok a1 -> ap_line a1 = title i -> i < 2 ^ 64 ->
  st data a1 (text_of sec ++ 10 :: post) -> Forall (fun l => ~ In 10 l) sec ->
  exists a' off, ap_read_values sd a i (lenN sec) = (' (p, b) <- read_values sd i sec ;; Ok (p, b, a')) /\
    st data a' post /\ ap_line a' = [] /\ ap_offs a' = ap_offs a1 ++ [off] /\ ap_max a' = ap_max a1 /\
    off <= lenN data /\ skipn (N.to_nat off) data = text_of sec ++ 10 :: post.
Proof.
  intros K L Hi SS F. unfold ap_read_values. rewrite K. cbn [bind]. destruct (title_ok i Hi) as (_ & _ & TE). rewrite expect_ok by congruence. cbn [bind].
  pose proof SS as (E & P & SK). assert (TG : tellg (ap_is a1) = (is_pos (ap_is a1), ap_is a1)) by (unfold tellg; replace (is_good (ap_is a1)) with true by (rewrite E; reflexivity); reflexivity). rewrite TG.
  set (off := is_pos (ap_is a1)) in *. set (a1' := mkaps (ap_is a1) (ap_line a1) (ap_offs a1 ++ [off]) (ap_max a1)).
  destruct (values_loop data sd i sec a1' (10 :: post)) as (a2 & S2 & O2 & M2 & EQ); [exact SS|exact F|].
  destruct (read_line_ok data a2 [] post S2 ltac:(intros [])) as (a3 & R3 & S3 & L3 & O3 & M3).
  exists a3, off. split.
  - unfold lenN. rewrite Nat2N.id. fold off a1'. rewrite EQ. unfold read_values. destruct (foldM _ sec ([], [])) as [[p b]| |]; cbn [bind]; [|reflexivity|reflexivity]. rewrite R3. reflexivity.
  - split; [exact S3|]. split; [exact L3|]. split; [rewrite O3, O2; reflexivity|]. split; [rewrite M3, M2; reflexivity|]. split; [exact P|exact SK].
Qed.

Section File.
Variables (data tail : list N).

Definition after (a : aps) (i : N) (rest : list (list (list N))) : Prop :=
  ap_line a = [] /\
  match rest with
  | [] => st data a (t_end ++ tail)
  | _ => exists g gaps, st data a (text_of (blanks g ++ section_lines i rest gaps) ++ t_end ++ tail)
  end.
Definition ready (a : aps) (i : N) (s : list (list N)) (rest : list (list (list N))) : Prop :=
  exists a1 g gaps, ap_skip a = Ok a1 /\ ap_line a1 = title i /\ ap_offs a1 = ap_offs a /\ ap_max a1 = ap_max a /\
    (rest = [] -> g = O) /\ st data a1 (text_of s ++ 10 :: text_of (blanks g ++ section_lines (i + 1) rest gaps) ++ t_end ++ tail).

Lemma sections_text i s rest gaps post : text_of (section_lines i (s :: rest) gaps) ++ post =
  title i ++ 10 :: text_of s ++ 10 :: text_of (blanks (match rest with [] => O | _ => hd O gaps end) ++ section_lines (i + 1) rest (tl gaps)) ++ post.
Proof.
  cbn [section_lines app]. rewrite text_of_cons, text_of_app, <- app_assoc. f_equal.
Qed.

Lemma after_ready a i s rest : i < 2 ^ 64 -> after a i (s :: rest) -> ready a i s rest.
Proof.
  intros Hi (EL & g & gaps & SS). destruct (title_ok i Hi) as (T1 & T2 & _).
  rewrite text_of_app, <- app_assoc, sections_text, <- text_of_blanks_app in SS.
  destruct (skip_ok data g a (title i) _ EL T1 T2 SS) as (a1 & K & S1 & L1 & O1 & M1).
  exists a1, (match rest with [] => O | _ => hd O gaps end), (tl gaps). split; [exact K|]. split; [exact L1|]. split; [exact O1|]. split; [exact M1|]. split; [intros ->; reflexivity|exact S1].
Qed.

Lemma values_step sd a i s rest : i < 2 ^ 64 -> ready a i s rest -> Forall (fun l => ~ In 10 l) s ->
  exists a' off, ap_read_values sd a i (lenN s) = (' (p, b) <- read_values sd i s ;; Ok (p, b, a')) /\
    after a' (i + 1) rest /\ ap_offs a' = ap_offs a ++ [off] /\ ap_max a' = ap_max a /\ off <= lenN data /\
    exists post, skipn (N.to_nat off) data = text_of s ++ 10 :: post.
Proof.
  intros Hi (a1 & g & gaps & K & L & O1 & M1 & G & SS) F.
  destruct (read_values_file data sd a a1 i s _ K L Hi SS F) as (a' & off & EQ & S' & L' & O' & M' & B & SK).
  exists a', off. split; [exact EQ|]. split; [|split; [congruence|split; [congruence|split; [exact B|eexists; exact SK]]]].
  split; [exact L'|]. destruct rest as [|r rest].
  - rewrite (G eq_refl) in S'. exact S'.
  - exists g, gaps. exact S'.
Qed.

Variables (env : penv) (secs : list (list (list N))) (order pq bq : N).
Hypothesis (LS : lenN secs < 256) (NLs : Forall (Forall (fun l => ~ In 10 l)) secs).

Lemma values_all : forall k don rest i a, secs = don ++ rest -> i = lenN don + 1 -> (k <= length rest)%nat ->
  match rest with [] => True | s :: r => ready a i s r end ->
  exists a' offs, (k <> O -> after a' (i + N.of_nat k) (skipn k rest)) /\ (k = O -> a' = a) /\ ap_offs a' = ap_offs a ++ offs /\
    Forall2 (fun off s => off <= lenN data /\ exists post, skipn (N.to_nat off) data = text_of s ++ 10 :: post) offs (firstn k rest) /\
    forall bs, foldM (fun (s : aps * (qsc * qsc)) ord =>
           let '(a, bs) := s in
           n <- rd (map lenN secs) (ord - 1) ;;
           ' (probs, backoffs, a) <- ap_read_values (pe_sd env) a ord n ;;
           if ord =? 1 then Ok (a, bs) else
           pb <- build_probs (fst bs) (pe_sort env probs) pq ;;
           bb <- (if ord =? order then Ok (snd bs) else build_backoffs (snd bs) (pe_sort env backoffs) bq) ;;
           Ok (a, (pb, bb))) (seqN i k) (a, bs) =
    (bs' <- foldM (fun (bs : qsc * qsc) ord =>
           lines <- rd secs (ord - 1) ;;
           ' (probs, backoffs) <- read_values (pe_sd env) ord lines ;;
           if ord =? 1 then Ok bs else
           pb <- build_probs (fst bs) (pe_sort env probs) pq ;;
           bb <- (if ord =? order then Ok (snd bs) else build_backoffs (snd bs) (pe_sort env backoffs) bq) ;;
           Ok (pb, bb)) (seqN i k) bs ;; Ok (a', bs')).
Proof.
  induction k as [|k IH]; intros don rest i a ES Ei Hk R.
  - exists a, []. split; [congruence|]. split; [reflexivity|]. split; [rewrite app_nil_r; reflexivity|]. split; [constructor|]. intros bs. reflexivity.
  - destruct rest as [|s rest]; [cbn in Hk; lia|].
    assert (Hi : i < 2 ^ 64). { rewrite ES, lenN_app in LS. assert (300 < 2 ^ 64) by reflexivity. lia. }
    assert (Fs : Forall (fun l => ~ In 10 l) s). { rewrite ES, Forall_app in NLs. exact (Forall_inv (proj2 NLs)). }
    assert (RS : rd secs (i - 1) = Ok s). { apply (proj2 (rd_nthN _ _ _)). rewrite ES, Ei. replace (lenN don + 1 - 1) with (lenN don) by lia. rewrite nthN_app2 by lia. rewrite N.sub_diag. reflexivity. }
    assert (RC : rd (map lenN secs) (i - 1) = Ok (lenN s)). { apply (proj2 (rd_nthN _ _ _)). rewrite nthN_map. rewrite (proj1 (rd_nthN _ _ _) RS). reflexivity. }
    destruct (values_step (pe_sd env) a i s rest Hi R Fs) as (a1 & off & EQ & AF & O1 & M1 & B & post & SK).
    assert (R1 : match rest with [] => True | s' :: r => ready a1 (i + 1) s' r end).
    { destruct rest as [|s' r]; [exact I|]. apply after_ready; [|exact AF]. rewrite ES, lenN_app, !lenN_cons in LS. assert (300 < 2 ^ 64) by reflexivity. lia. }
    destruct (IH (don ++ [s]) rest (i + 1) a1) as (a' & offs & AF' & AZ & O' & F2 & EQ'); [rewrite <- app_assoc; exact ES|rewrite lenN_app; change (lenN [s]) with 1; lia|cbn in Hk; lia|exact R1|].
    exists a', (off :: offs). split.
    { intros _. destruct k as [|k'].
      - rewrite (AZ eq_refl). cbn [skipn]. exact AF.
      - replace (i + N.of_nat (S (S k'))) with (i + 1 + N.of_nat (S k')) by lia. cbn [skipn]. apply AF'. discriminate. }
    split; [discriminate|]. split; [rewrite O', O1, <- app_assoc; reflexivity|]. split; [cbn [firstn]; constructor; [split; [exact B|exists post; exact SK]|exact F2]|].
    intros bs. cbn [seqN]. rewrite <- N.add_1_r. cbn [foldM]. rewrite RS, RC. cbn [bind]. rewrite EQ. destruct (read_values (pe_sd env) i s) as [[p b]| |]; cbn [bind]; [|reflexivity|reflexivity].
    destruct (i =? 1); cbn [bind]; [apply EQ'|].
    destruct (build_probs (fst bs) (pe_sort env p) pq) as [pb| |]; cbn [bind]; [|reflexivity|reflexivity].
    destruct (if i =? order then Ok (snd bs) else build_backoffs (snd bs) (pe_sort env b) bq) as [bb| |]; cbn [bind]; [|reflexivity|reflexivity]. apply EQ'.
Qed.

Lemma eof_after a i rest : after a i rest -> (rest = [] -> tail = [] \/ exists t, tail = 10 :: t) -> i < 2 ^ 64 ->
  match rest with [] => exists a', ap_parse_eof a = Ok a' /\ ap_offs a' = ap_offs a | _ => ap_parse_eof a = Throw end.
Proof.
  intros (EL & H) T Hi. unfold ap_parse_eof. destruct rest as [|s rest].
  - assert (NT : ~ In 10 t_end) by (intros I; cbn in I; repeat (destruct I as [I|I]; [discriminate|]); exact I).
    destruct (T eq_refl) as [->|(t & ->)].
    + rewrite app_nil_r in H. destruct (read_line_last data a t_end H NT) as (a' & R & L & O & M). exists a'. rewrite R, expect_ok by exact L. auto.
    + destruct (read_line_ok data a t_end t H NT) as (a' & R & _ & L & O & M). exists a'. rewrite R, expect_ok by exact L. auto.
  - destruct H as (g & gaps & SS). rewrite text_of_app, <- app_assoc, sections_text in SS. destruct (title_ok i Hi) as (T1 & T2 & TE).
    assert (X : exists l a', ap_read_line a = (match l with [] => false | _ => true end, a') /\ ap_line a' = l /\ l <> t_end).
    { destruct g as [|g].
      - cbn in SS. change (st data a (title i ++ 10 :: text_of s ++ 10 :: text_of (blanks (match rest with [] => O | _ => hd O gaps end) ++ section_lines (i + 1) rest (tl gaps)) ++ t_end ++ tail)) in SS.
        destruct (read_line_ok data a (title i) _ SS T2) as (a' & R & _ & L & _). exists (title i), a'. split; [exact R|]. split; [exact L|].
        unfold title, t_end. intros E. injection E as E. apply (f_equal (@rev N)) in E. rewrite rev_app_distr in E. discriminate E.
      - change (blanks (S g)) with ([] :: blanks g : list (list N)) in SS. rewrite text_of_cons in SS. cbn [app] in SS.
        destruct (read_line_ok data a [] _ SS ltac:(intros [])) as (a' & R & _ & L & _). exists [], a'. split; [exact R|]. split; [exact L|discriminate]. }
    destruct X as (l & a' & R & L & NE). rewrite R. unfold ap_expect. destruct (list_eq_dec N.eq_dec (ap_line a') t_end); [congruence|reflexivity].
Qed.
End File.

(** the lines read by an iterator *)
Lemma lines_ok data : forall s a post, st data a (text_of s ++ post) -> Forall (fun l => ~ In 10 l) s ->
  exists a', ait_lines (length s) a = (s, a') /\ st data a' post.
Proof.
  induction s as [|l s IH]; intros a post SS F; cbn [length ait_lines].
  - exists a. auto.
  - rewrite text_of_cons in SS. destruct (read_line_ok data a l _ SS (Forall_inv F)) as (a1 & R1 & S1 & L1 & _).
    destruct (IH a1 post S1 (Forall_inv_tail F)) as (a' & K & S'). exists a'. unfold ait_line. rewrite R1, K, L1. auto.
Qed.

(** ** what an accepted header looks like *)
Definition bad (a : aps) : Prop := is_good (ap_is a) = false.
Lemma until_nl_inv l : (exists post, l = until_nl l ++ 10 :: post /\ ~ In 10 (until_nl l)) \/ (until_nl l = l /\ ~ In 10 l).
Proof.
  induction l as [|c l IH]; [right; split; [reflexivity|intros []]|]. cbn [until_nl]. destruct (N.eqb_spec c 10) as [->|E].
  - left. exists l. split; [reflexivity|intros []].
  - destruct IH as [(post & E1 & E2)|(E1 & E2)].
    + left. exists post. cbn [app]. rewrite <- E1. split; [reflexivity|]. intros [I|I]; [congruence|exact (E2 I)].
    + right. rewrite E1. split; [reflexivity|]. intros [I|I]; [congruence|exact (E2 I)].
Qed.
Lemma read_line_bad a : bad a -> exists a', ap_read_line a = (match ap_line a with [] => false | _ => true end, a') /\ bad a' /\ ap_line a' = ap_line a.
Proof.
  unfold bad. intros B. unfold ap_read_line, getline. rewrite B. eexists. split; [reflexivity|]. cbn. split; [|reflexivity].
  unfold is_good. cbn. rewrite orb_true_r. reflexivity.
Qed.
Lemma read_line_inv data a post : st data a post ->
  exists a', ap_read_line a = (match ap_line a' with [] => false | _ => true end, a') /\
    ((exists post', post = ap_line a' ++ 10 :: post' /\ ~ In 10 (ap_line a') /\ st data a' post') \/ (ap_line a' = post /\ ~ In 10 post /\ bad a')).
Proof.
  intros SS. destruct (until_nl_inv post) as [(p & E1 & E2)|(E1 & E2)].
  - rewrite E1 in SS. destruct (read_line_ok data a _ _ SS E2) as (a' & R & S' & L & _). exists a'. rewrite L. split; [exact R|]. left. exists p. auto.
  - destruct SS as (E & P & SK). unfold ap_read_line, getline. rewrite E. cbn [is_good is_eof is_fail is_pos is_data orb negb]. rewrite SK, E1, N.eqb_refl.
    exists (mkaps (mkist data (is_pos (ap_is a) + lenN post) true (lenN post =? 0)) post (ap_offs a) (ap_max a)). split; [reflexivity|]. right. cbn [ap_line]. split; [reflexivity|]. split; [exact E2|]. reflexivity.
Qed.
Lemma skip_bad : forall fuel a, bad a -> ap_line a = [] -> ap_skip_fuel fuel a = UB.
Proof.
  induction fuel as [|f IH]; intros a B E; cbn [ap_skip_fuel]; rewrite E; [reflexivity|].
  destruct (read_line_bad a B) as (a' & R & B' & L). rewrite R. cbn [snd]. apply IH; [exact B'|congruence].
Qed.
Lemma skip_inv data : forall fuel a post a', st data a post -> ap_line a = [] -> ap_skip_fuel fuel a = Ok a' ->
  exists n, ap_line a' <> [] /\ ((exists post', post = text_of (blanks n ++ [ap_line a']) ++ post' /\ st data a' post') \/ (post = text_of (blanks n) ++ ap_line a' /\ bad a')).
Proof.
  induction fuel as [|f IH]; intros a post a' SS E K; cbn [ap_skip_fuel] in K; rewrite E in K; [discriminate|].
  destruct (read_line_inv data a post SS) as (a1 & R & H). rewrite R in K. cbn [snd] in K.
  destruct (ap_line a1) as [|c l] eqn:L1.
  - destruct H as [(post' & E1 & _ & S1)|(E1 & _ & B)].
    + destruct (IH a1 post' a' S1 L1 K) as (n & NE & H). exists (S n). split; [exact NE|]. cbn [app] in E1.
      change (blanks (S n)) with ([] :: blanks n : list (list N)). cbn [app]. destruct H as [(p2 & E2 & S2)|(E2 & B2)].
      * left. exists p2. split; [|exact S2]. rewrite text_of_cons. cbn [app]. congruence.
      * right. split; [|exact B2]. rewrite text_of_cons. cbn [app]. congruence.
    + exfalso. rewrite (skip_bad f a1 B L1) in K. discriminate.
  - assert (a' = a1) as -> by (destruct f; cbn [ap_skip_fuel] in K; rewrite L1 in K; congruence). exists O. rewrite L1. split; [discriminate|].
    destruct H as [(post' & E1 & E2 & S1)|(E1 & _ & B)].
    + left. exists post'. split; [|exact S1]. cbn [blanks repeat app]. rewrite text_of_cons. exact E1.
    + right. split; [symmetry; exact E1|exact B].
Qed.

Lemma expect_inv a s x : ap_expect a s = Ok x -> ap_line a = s.
Proof. unfold ap_expect. destruct (list_eq_dec N.eq_dec (ap_line a) s); [auto|discriminate]. Qed.

Lemma bind_inv_ {A B} (m : res A) (f : A -> res B) r : bind m f = Ok r -> exists x, m = Ok x /\ f x = Ok r.
Proof. destruct m; cbn; intros H; try discriminate. eauto. Qed.

Lemma strtoull_lt buf p v : strtoull buf p = Ok v -> v < 2 ^ 64.
Proof.
  unfold strtoull. intros H. apply bind_inv_ in H. destruct H as (q & _ & H). apply bind_inv_ in H. destruct H as (c & _ & H). apply bind_inv_ in H. destruct H as (w & _ & H).
  injection H as <-. destruct (N.leb_spec (2 ^ 64) w); [reflexivity|]. destruct (c =? 45); [|assumption]. unfold sub64. apply w64_lt.
Qed.

(** the same line cannot be read twice *)
Lemma cline_inj i j c d : i < 2 ^ 64 -> j < 2 ^ 64 -> c < 2 ^ 64 -> d < 2 ^ 64 -> cline i c = cline j d -> i = j /\ c = d.
Proof.
  intros Hi Hj Hc Hd E. unfold cline in E. apply app_inv_head in E.
  assert (X : forall x y u v : list N, ~ In 61 x -> ~ In 61 y -> x ++ 61 :: u = y ++ 61 :: v -> x = y /\ u = v).
  { induction x as [|a x IH]; intros y u v Hx Hy EQ; destruct y as [|b y]; cbn [app] in EQ.
    - injection EQ as ->. auto.
    - injection EQ as <- _. exfalso. apply Hy. left. reflexivity.
    - injection EQ as -> _. exfalso. apply Hx. left. reflexivity.
    - injection EQ as -> EQ. destruct (IH y u v) as (-> & ->); [intros I; apply Hx; right; exact I|intros I; apply Hy; right; exact I|exact EQ|]. auto. }
  destruct (X _ _ _ _ (digits_no 61 i Hi eq_refl) (digits_no 61 j Hj eq_refl) E) as (E1 & E2).
  split; [rewrite <- (proj1 (to_string_ok i Hi)), <- (proj1 (to_string_ok j Hj)), E1; reflexivity|rewrite <- (proj1 (to_string_ok c Hc)), <- (proj1 (to_string_ok d Hd)), E2; reflexivity].
Qed.

Lemma counts_bad : forall fuel a i c acc, bad a -> i < 2 ^ 32 -> ap_line a = cline i c -> c < 2 ^ 64 -> forall r, ap_counts fuel a i acc <> Ok r.
Proof.
  intros fuel a i c acc B Hi L Hc r K. destruct fuel as [|fuel]; [discriminate|]. cbn [ap_counts] in K.
  apply bind_inv_ in K. destruct K as (br & _ & K). apply bind_inv_ in K. destruct K as (n & _ & K). apply bind_inv_ in K. destruct K as (u & _ & K).
  destruct (read_line_bad a B) as (a' & R & B' & L'). rewrite R, L in K. cbn [cline t_ngram app] in K.
  destruct fuel as [|fuel]; [discriminate|]. cbn [ap_counts] in K. apply bind_inv_ in K. destruct K as (br2 & _ & K). apply bind_inv_ in K. destruct K as (n2 & N2 & K). apply bind_inv_ in K. destruct K as (u2 & X & K).
  apply expect_inv in X. rewrite L', L in X. apply (cline_inj i _ c n2) in X; [|assert (2 ^ 32 < 2 ^ 64) by reflexivity; lia| |exact Hc|exact (strtoull_lt _ _ _ N2)].
  - destruct X as (X & _). destruct (N.eq_dec i (2 ^ 32 - 1)) as [->|NEi]; [vm_compute in X; discriminate|]. rewrite N.mod_small in X by lia. lia.
  - pose proof (N.mod_lt (i + 1) (2 ^ 32) ltac:(discriminate)). assert (2 ^ 32 < 2 ^ 64) by reflexivity. lia.
Qed.

Lemma counts_inv data : forall fuel a i acc post r a', st data a post -> i + lenN post < 2 ^ 32 - 1 -> ap_counts fuel a i acc = Ok (r, a') ->
  exists c cs, r = acc ++ c :: cs /\ ap_line a = cline i c /\ ap_line a' = [] /\
   ((exists post', post = text_of (count_lines (i + 1) cs) ++ 10 :: post' /\ st data a' post') \/ (bad a' /\ post = text_of (count_lines (i + 1) cs))).
Proof.
  induction fuel as [|fuel IH]; intros a i acc post r a' SS Hi K; [discriminate|]. cbn [ap_counts] in K.
  apply bind_inv_ in K. destruct K as (br & _ & K). apply bind_inv_ in K. destruct K as (c & Hc & K). apply bind_inv_ in K. destruct K as (u & X & K).
  apply expect_inv in X. apply strtoull_lt in Hc. destruct (read_line_inv data a post SS) as (a1 & R & H). rewrite R in K.
  destruct (ap_line a1) as [|x l] eqn:L1.
  - injection K as <- <-. exists c, []. split; [reflexivity|]. split; [exact X|]. split; [exact L1|]. destruct H as [(post' & E & _ & S1)|(E & _ & B)]; [left; exists post'; auto|right; split; [exact B|symmetry; exact E]].
  - rewrite N.mod_small in K by lia. destruct H as [(post' & E & _ & S1)|(E & _ & B)].
    + destruct (IH a1 (i + 1) (acc ++ [c]) post' r a' S1) as (c2 & cs & E1 & E2 & E3 & E4); [rewrite E, lenN_app, !lenN_cons in Hi; lia|exact K|].
      exists c, (c2 :: cs). split; [rewrite E1, <- app_assoc; reflexivity|]. split; [exact X|]. split; [exact E3|]. rewrite L1 in E2.
      destruct E4 as [(p2 & E4 & S2)|(B2 & E4)].
      * left. exists p2. split; [|exact S2]. cbn [count_lines]. rewrite text_of_cons. rewrite <- E4. rewrite E, E2. reflexivity.
      * right. split; [exact B2|]. cbn [count_lines]. rewrite <- (app_nil_r (text_of _)), text_of_cons, app_nil_r, <- E4. rewrite E, E2. reflexivity.
    + exfalso. destruct fuel as [|fuel']; [discriminate|]. pose proof K as K0. cbn [ap_counts] in K0. apply bind_inv_ in K0. destruct K0 as (br2 & _ & K0). apply bind_inv_ in K0. destruct K0 as (c2 & Hc2 & K0). apply bind_inv_ in K0. destruct K0 as (u2 & X2 & _).
      apply expect_inv in X2. apply strtoull_lt in Hc2. exact (counts_bad (S fuel') a1 (i + 1) c2 (acc ++ [c]) B ltac:(lia) X2 Hc2 _ K).
Qed.

Lemma header_inv data counts a : lenN data < 2 ^ 32 - 2 -> ap_read_header (ap_open data) = Ok (counts, a) ->
  exists b0 post, counts <> [] /\ data = text_of (blanks b0 ++ [t_data] ++ count_lines 1 counts ++ [[]]) ++ post.
Proof.
  intros LD K. unfold ap_read_header in K. apply bind_inv_ in K. destruct K as (a1 & K1 & K). apply bind_inv_ in K. destruct K as (u & X & K). apply expect_inv in X.
  unfold ap_skip in K1. destruct (skip_inv data _ _ data a1 (st_open data) eq_refl K1) as (b0 & NE & H).
  destruct H as [(post & E1 & S1)|(E1 & B1)].
  - destruct (read_line_inv data a1 post S1) as (a2 & R & H). rewrite R in K. apply bind_inv_ in K. destruct K as ([cs a3] & K2 & K). apply bind_inv_ in K. destruct K as (a4 & K3 & K). injection K as -> ->.
    assert (L2 : ap_line a2 <> []). { intros L2. cbn [ap_counts] in K2. rewrite L2 in K2. vm_compute in K2. discriminate. }
    destruct H as [(post2 & E2 & _ & S2)|(E2 & _ & B2)].
    + assert (LB : 1 + lenN post2 < 2 ^ 32 - 1).
      { rewrite E1, lenN_app, E2, lenN_app, lenN_cons in LD. lia. }
      destruct (counts_inv data _ _ _ _ post2 _ _ S2 LB K2) as (c & cs & E3 & E4 & E5 & E6). cbn [app] in E3. subst counts. exists b0. destruct E6 as [(post3 & E6 & S3)|(B3 & E6)].
      * exists post3. split; [discriminate|]. rewrite app_assoc, text_of_app, <- app_assoc. rewrite X in E1. rewrite E1 at 1. f_equal. cbn [count_lines app]. rewrite text_of_cons.
        rewrite E2, E4. unfold cline, t_ngram, decimal. cbn [app]. rewrite E6, text_of_app, <- !app_assoc. reflexivity.
      * exfalso. unfold ap_skip in K3. cbn [ap_is] in K3. rewrite skip_bad in K3; [discriminate|exact B3|exact E5].
    + exfalso. destruct (S (S (length (is_data (ap_is a2))))) as [|f] eqn:EF; [discriminate|]. pose proof K2 as K0. cbn [ap_counts] in K0. apply bind_inv_ in K0. destruct K0 as (br2 & _ & K0). apply bind_inv_ in K0. destruct K0 as (c2 & Hc2 & K0). apply bind_inv_ in K0. destruct K0 as (u2 & X2 & _).
      apply expect_inv in X2. apply strtoull_lt in Hc2. exact (counts_bad (S f) a2 1 c2 [] B2 eq_refl X2 Hc2 _ K2).
  - exfalso. destruct (read_line_bad a1 B1) as (a2 & R & B2 & L2). rewrite R in K. apply bind_inv_ in K. destruct K as (r & K2 & _). cbn [ap_counts] in K2. rewrite L2, X in K2. cbn in K2. discriminate.
Qed.

(** ** a whole file *)
Lemma open_ok data s rest : arpa_text data (s :: rest) ->
  exists tail a, ap_read_header (ap_open data) = Ok (map lenN (s :: rest), a) /\ ready data tail a 1 s rest /\ ap_offs a = [] /\ ap_max a = lenN (s :: rest) /\
    is_good (ap_is a) = true /\ is_data (ap_is a) = data /\
    (tail = [] \/ exists t, tail = 10 :: t) /\ lenN (s :: rest) < 256 /\ Forall (Forall (fun l => ~ In 10 l)) (s :: rest) /\ lenN data < 2 ^ 64 - 1.
Proof.
  intros (b0 & b1 & gaps & tail & ED & TL & LS & NL & LD & SZ).
  destruct (title_ok 1 eq_refl) as (T1 & T2 & _).
  destruct (header_ok data b0 b1 (map lenN (s :: rest)) (title 1) (text_of s ++ 10 :: text_of (blanks (match rest with [] => O | _ => hd O gaps end) ++ section_lines (1 + 1) rest (tl gaps)) ++ t_end ++ tail)) as (a & K & S' & L & OO & M).
  - discriminate.
  - unfold lenN in *. rewrite map_length. lia.
  - rewrite Forall_map. exact SZ.
  - exact T1.
  - exact T2.
  - pose proof (sections_text 1 s rest gaps (t_end ++ tail)) as X.
    set (P := blanks b0 ++ [t_data] ++ count_lines 1 (map lenN (s :: rest)) ++ blanks (S b1)).
    replace (blanks b0 ++ [t_data] ++ count_lines 1 (map lenN (s :: rest)) ++ blanks (S b1) ++ [title 1]) with (P ++ [title 1]) by (unfold P; rewrite <- !app_assoc; reflexivity).
    rewrite ED. replace (blanks b0 ++ [[92; 100; 97; 116; 97; 92]] ++ count_lines 1 (map lenN (s :: rest)) ++ blanks (S b1) ++ section_lines 1 (s :: rest) gaps) with (P ++ section_lines 1 (s :: rest) gaps) by (unfold P; rewrite <- !app_assoc; reflexivity).
    rewrite !text_of_app, <- !app_assoc. f_equal. change [92; 101; 110; 100; 92] with t_end. rewrite X. rewrite text_of_app. cbn [text_of map concat]. rewrite app_nil_r, <- !app_assoc. reflexivity.
  - exists tail, a. split; [exact K|]. split.
    + exists a, (match rest with [] => O | _ => hd O gaps end), (tl gaps). split; [apply skip_nothing; rewrite L; exact T1|]. split; [exact L|]. split; [reflexivity|]. split; [reflexivity|]. split; [intros ->; reflexivity|exact S'].
    + split; [exact OO|]. split; [rewrite M; unfold lenN; rewrite map_length; reflexivity|]. split; [destruct S' as (E & _); rewrite E; reflexivity|]. split; [exact (st_data _ _ _ S')|].
      split; [exact TL|]. split; [lia|]. split; [exact NL|exact LD].
Qed.

Lemma section_ok data secs k s off post : arpa_text data secs -> nthN secs k = Some s -> off <= lenN data -> skipn (N.to_nat off) data = text_of s ++ 10 :: post ->
  exists n a a', ait_open data (k + 1) off = Ok (n, a) /\ n = lenN s /\ ait_lines (length s) a = (s, a') /\ fst (ait_line a') = [].
Proof.
  intros AT Hk Ho SK. pose proof (nthN_lt _ _ _ Hk) as Lk. destruct secs as [|s0 rest]; [change (lenN (@nil (list (list N)))) with 0 in Lk; lia|].
  destruct (open_ok data s0 rest AT) as (tail & a & K & _ & _ & M & G & D & _ & LS & NL & LD).
  unfold ait_open. rewrite K. cbn [bind ap_max].
  assert (RC : rd (map lenN (s0 :: rest)) (sub64 (k + 1) 1) = Ok (lenN s)).
  { rewrite sub64_small by lia. replace (k + 1 - 1) with k by lia. apply (proj2 (rd_nthN _ _ _)). rewrite nthN_map, Hk. reflexivity. }
  rewrite RC. cbn [bind]. rewrite M. destruct (N.ltb_spec (lenN (s0 :: rest)) (k + 1)) as [Z|Z]; [lia|].
  set (a1 := mkaps (seekg (ap_is a) off) (ap_line a) (ap_offs a) (lenN (s0 :: rest))).
  assert (S1 : st data a1 (text_of s ++ 10 :: post)).
  { unfold st, a1. cbn [ap_is]. unfold seekg. unfold is_good in G. apply negb_true_iff, orb_false_iff in G. rewrite (proj2 G). destruct (N.eqb_spec off (2 ^ 64 - 1)); [lia|]. cbn [is_pos]. rewrite D. auto. }
  destruct (lines_ok data s a1 _ S1 (Forall_nthN _ _ _ _ NL Hk)) as (a' & K' & S').
  exists (lenN s), a1, a'. split; [reflexivity|]. split; [reflexivity|]. split; [exact K'|].
  destruct (read_line_ok data a' [] post S' ltac:(intros [])) as (a2 & R & _ & L & _). unfold ait_line. rewrite R. exact L.
Qed.

Lemma load_ok env data secs order pq bq : arpa_text data secs -> 1 <= order ->
  ap_load env data order pq bq = if lenN secs <? order then Throw else (bs <- mp_values env secs order pq bq ;; if order <? lenN secs then Throw else Ok (bs, secs)).
Proof.
  intros AT Ho. destruct secs as [|s rest]; [destruct AT as (? & ? & ? & ? & _ & _ & L & _); change (lenN (@nil (list (list N)))) with 0 in L; lia|].
  destruct (open_ok data s rest AT) as (tail & a & K & R & O & M & G & D & TL & LS & NL & LD).
  unfold ap_load. rewrite K. cbn [bind]. replace (lenN (map lenN (s :: rest))) with (lenN (s :: rest)) by (unfold lenN; rewrite map_length; reflexivity).
  destruct (N.ltb_spec (lenN (s :: rest)) order) as [Z|Z]; [reflexivity|].
  destruct (values_all data tail env (s :: rest) order pq bq LS NL (N.to_nat order) [] (s :: rest) 1 a eq_refl eq_refl ltac:(unfold lenN in Z; lia) R) as (a' & offs & AF & _ & OF & F2 & EQ).
  unfold ap_values. rewrite EQ. unfold mp_values. destruct (foldM _ (seqN 1 (N.to_nat order)) (qsc_empty, qsc_empty)) as [bs| |]; cbn [bind]; [|reflexivity|reflexivity].
  specialize (AF ltac:(lia)). rewrite O in OF. cbn [app] in OF.
  pose proof (eof_after data tail a' _ _ AF (fun _ => TL) ltac:(assert (600 < 2 ^ 64) by reflexivity; lia)) as EE.
  destruct (N.ltb_spec order (lenN (s :: rest))) as [Y|Y].
  - destruct (skipn (N.to_nat order) (s :: rest)) as [|x y] eqn:SK.
    + exfalso. apply (f_equal (@length _)) in SK. rewrite skipn_length in SK. unfold lenN in Y. cbn [length] in *. lia.
    + rewrite EE. reflexivity.
  - assert (order = lenN (s :: rest)) by lia. rewrite skipn_all2 in EE by (unfold lenN in Y; lia). destruct EE as (a2 & E2 & O2). rewrite E2. cbn [bind]. rewrite O2, OF.
    rewrite firstn_all2 in F2 by (unfold lenN in Y; lia).
    assert (MM : forall sx ox don, (s :: rest) = don ++ sx -> Forall2 (fun off s => off <= lenN data /\ exists post, skipn (N.to_nat off) data = text_of s ++ 10 :: post) ox sx ->
      forall dof, offs = dof ++ ox -> lenN dof = lenN don ->
      mapM (fun ord => off <- rd offs (ord - 1) ;; ait_section data ord off) (seqN (lenN don + 1) (length sx)) = Ok sx).
    { induction sx as [|x sx IH]; intros ox don ES FX dof EO LD'; [reflexivity|]. inversion FX as [|o x' ox' sx' (B & post & SK) FX' E1 E2']. rewrite <- E1 in EO.
      cbn [length seqN mapM]. rewrite <- N.add_1_r. replace (lenN don + 1 - 1) with (lenN don) by lia.
      assert (RO : rd offs (lenN don) = Ok o). { apply (proj2 (rd_nthN _ _ _)). rewrite EO, <- LD', nthN_app2 by lia. rewrite N.sub_diag. reflexivity. }
      assert (NX : nthN (s :: rest) (lenN don) = Some x). { rewrite ES, nthN_app2 by lia. rewrite N.sub_diag. reflexivity. }
      assert (AS : ait_section data (lenN don + 1) o = Ok x).
      { unfold ait_section. destruct (section_ok data (s :: rest) (lenN don) x o post AT NX B SK) as (n & a3 & a4 & E3 & E4 & E5 & _). rewrite E3. cbn [bind]. rewrite E4. replace (N.to_nat (lenN x)) with (length x) by (unfold lenN; lia). rewrite E5. reflexivity. }
      rewrite RO. cbn [bind]. rewrite AS. cbn [bind].
      replace (lenN don + 1 + 1) with (lenN (don ++ [x]) + 1) by (rewrite lenN_app; reflexivity).
      rewrite (IH ox' (don ++ [x])) with (dof := dof ++ [o]); [reflexivity|rewrite <- app_assoc; exact ES|exact FX'|rewrite <- app_assoc; exact EO|rewrite !lenN_app, LD'; reflexivity]. }
    specialize (MM (s :: rest) offs [] eq_refl F2 [] eq_refl eq_refl). replace (N.to_nat order) with (length (s :: rest)) by (unfold lenN in *; lia).
    change (lenN (@nil (list (list N))) + 1) with 1 in MM. rewrite MM. reflexivity.
Qed.
