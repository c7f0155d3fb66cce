(** * Model of include/utils/mphf.hpp and include/utils/mph_tables.hpp

    The hasher composed with the client's adaptor is an arbitrary function
    [h : K -> hash triple].  external/emphf is not in the repository; what is
    assumed of it is written at [rank] and [valid_order]. *)
From Verif Require Import Prelude M_Word M_Bits M_CompactVector M_HashVec.
From Coq Require Import Permutation.

Definition triple : Type := N * N * N.
Definition edge : Type := N * N * N.      (* hyperedge: v0, v1, v2 *)

(** mphf members n, hash domain, bit pairs (mphf.hpp 132-136); the hasher is passed along *)
Record mphf := mkmphf { m_n : N; m_dom : N; m_bv : list N }.

(** m_hash_domain, mphf.hpp 24, with exact instead of floating-point 1.23 *)
Definition hash_domain (n : N) : N := ((n * 123 + 99) / 100 + 2) / 3.

(** the three nodes of a hash triple: mphf.hpp 38-41 and 87-90; % 0 is undefined *)
Definition mph_nodes (dom : N) (t : triple) : res triple :=
  if dom =? 0 then UB else
  let '(a, b, c) := t in Ok (a mod dom, dom + b mod dom, 2 * dom + c mod dom).

(** emphf orientation(edge) [external]: the rank of v0 among the nodes of the edge *)
Definition orientation (e : edge) : N :=
  let '(v0, v1, v2) := e in N.b2n (v1 <? v0) + N.b2n (v2 <? v0).

(** one iteration of lines 59-67; bitpair_vector is an array of 2-bit entries [external] *)
Definition mph_assign (bv : list N) (e : edge) : res (list N) :=
  let '(v0, v1, v2) := e in
  a1 <- rd bv v1 ;; a2 <- rd bv v2 ;;
  let x := (add64 (sub64 (orientation e) (add64 a1 a2)) 9) mod 3 in
  wr bv v0 (if x =? 0 then 3 else x).

(** constructor, lines 20-70, from the sorter's peeling order on *)
Definition mph_build (n dom : N) (order : list edge) : res mphf :=
  bv <- foldM mph_assign order (repN 0 (3 * dom)) ;; Ok (mkmphf n dom bv).

(** emphf ranked_bitpair_vector::rank(pos) [external]: number of nonzero pairs before pos *)
Definition rank (bv : list N) (pos : N) : N :=
  lenN (filter (fun x => negb (x =? 0)) (firstn (N.to_nat pos) bv)).

(** lookup, lines 85-93 *)
Definition mph_lookup (m : mphf) (t : triple) : res N :=
  ' (n0, n1, n2) <- mph_nodes (m_dom m) t ;;
  a0 <- rd (m_bv m) n0 ;; a1 <- rd (m_bv m) n1 ;; a2 <- rd (m_bv m) n2 ;;
  let hidx := (a0 + a1 + a2) mod 3 in
  Ok (rank (m_bv m) (if hidx =? 0 then n0 else if hidx =? 1 then n1 else n2)).

(** mix_hashes, lines 102-109, in hash_t arithmetic *)
Definition mix (hb : N) (t : triple) : N :=
  let '(a, b, c) := t in
  let hash := trunc hb (17 * 31 + a) in
  let hash := trunc hb (hash * 31 + b) in
  trunc hb (hash * 31 + c).

(** What a successful sorter returns [external, hypergraph_sorter_scan]: one edge per
    key, holding the key's three nodes, ordered so that the vertex v0 assigned by an
    edge does not occur in any edge assigned before it (a peeling, reversed). *)
Definition edge_of (dom : N) (t : triple) (e : edge) : Prop :=
  match mph_nodes dom t with
  | Ok (n0, n1, n2) => let '(v0, v1, v2) := e in Permutation [v0; v1; v2] [n0; n1; n2]
  | _ => False
  end.
Definition edge_nodes (e : edge) : list N := let '(v0, v1, v2) := e in [v0; v1; v2].
Definition edge_v0 (e : edge) : N := let '(v0, _, _) := e in v0.
Definition valid_order {K} (dom : N) (h : K -> triple) (keys : list K) (order : list edge) : Prop :=
  (exists keys', Permutation keys keys' /\ Forall2 (fun k e => edge_of dom (h k) e) keys' order) /\
  ForallOrdPairs (fun ei ej => ~ In (edge_v0 ej) (edge_nodes ei)) order.

(** ** single_valued_mpht (mph_tables.hpp 20-119) *)
Record svt := mksvt { sv_h : mphf; sv_data : hcv }.

(** builder, lines 27-55: [for (auto value : values)] with [it] over the keys.
    values are read through the compact_vector iterator. *)
Definition svt_build {K} (hb : N) (h : K -> triple) (dom : N) (order : list edge) (keys : list K) (vals : cv) : res svt :=
  data <- hcv_new hb (c_size vals) (c_width vals) ;;
  m <- mph_build (lenN keys) dom order ;;
  vs <- cvit_take vals (cvit_new vals 0) (N.to_nat (c_size vals)) ;;
  data <- foldM (fun d iv => k <- rd keys (fst iv) ;;
                             pos <- mph_lookup m (h k) ;;
                             hcv_set hb d pos (mix hb (h k)) (snd iv))
                (combine (range (lenN vs)) vs) data ;;
  Ok (mksvt m data).
(** lookup, lines 80-87 *)
Definition svt_lookup {K} (hb : N) (h : K -> triple) (t : svt) (g : K) : res N :=
  pos <- mph_lookup (sv_h t) (h g) ;;
  ' (k, v) <- hcv_get hb (sv_data t) pos ;;
  Ok (if k =? mix hb (h g) then v else not_found).

(** ** double_valued_mpht (lines 129-264), built without client keys ([keys.size() == 0]) *)
Record dvt := mkdvt { dv_h : mphf; dv_data : ct }.
(** build, lines 142-184 *)
Definition dvt_build {K} (hb : N) (h : K -> triple) (dom : N) (order : list edge) (keys : list K) (vals1 vals2 : cv) : res dvt :=
  m <- mph_build (lenN keys) dom order ;;
  data <- ctb_new (lenN keys) 64 (c_width vals1) (c_width vals2) ;;
  vs1 <- cvit_take vals1 (cvit_new vals1 0) (length keys) ;;
  vs2 <- cvit_take vals2 (cvit_new vals2 0) (length keys) ;;
  data <- foldM (fun d kv => let '(k, (x, y)) := kv in
                             pos <- mph_lookup m (h k) ;;
                             ctb_set d pos (mix hb (h k), x, y))
                (combine keys (combine vs1 vs2)) data ;;
  Ok (mkdvt m (ctb_build data)).
(** lookup_pair, lines 187-203 *)
Definition dvt_lookup_pair {K} (hb : N) (h : K -> triple) (t : dvt) (g : K) : res (N * N) :=
  pos <- mph_lookup (dv_h t) (h g) ;;
  ' (k, x, y) <- ct_get (dv_data t) pos ;;
  Ok (if k =? mix hb (h g) then (x, y) else (not_found, not_found)).
(** lookup, lines 224-232 *)
Definition dvt_lookup {K} (hb : N) (h : K -> triple) (t : dvt) (g : K) : res N :=
  pos <- mph_lookup (dv_h t) (h g) ;;
  ' (k, x, y) <- ct_get (dv_data t) pos ;;
  Ok (if k =? mix hb (h g) then x else not_found).

(** ** uint_mpht (lines 270-350) *)
Record uit_t := mkuitt { ut_h : mphf; ut_values : cv }.
(** build, lines 283-309; [to.back()] of an empty vector is undefined *)
Definition umpht_build (h : N -> triple) (dom : N) (order : list edge) (from to : list N) : res uit_t :=
  m <- mph_build (lenN from) dom order ;;
  back <- rd to (sub64 (lenN to) 1) ;;
  b <- cvb_new (lenN to) (ceil_log2 (add64 back 1)) ;;
  b <- foldM (fun b it => x <- rd from (fst it) ;;
                          pos <- mph_lookup m (h x) ;;
                          cvb_set b pos (snd it))
             (combine (range (lenN to)) to) b ;;
  Ok (mkuitt m (cv_of_builder b)).
(** lookup, lines 311-316 *)
Definition umpht_lookup (h : N -> triple) (t : uit_t) (x : N) : res N :=
  pos <- mph_lookup (ut_h t) (h x) ;; cv_get (ut_values t) pos.
