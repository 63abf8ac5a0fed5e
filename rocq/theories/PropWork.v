(** * Theorems: what the counters of a search count (C122).

    [work acc g n starts expanded compared], [room_for], [descent]: WorkSpec.v.  The counters are an object of the caller,
    hops first; [None] is a null pointer. *)
From Coq Require Import NArith ZArith String List Arith Bool.
From Verif Require Import Base Float32 PoolModel TopKSpec SortSpec SortInst GraphSpec GreedyModel SearchModel SearchSpec FilterSpec ClosestModel ClosestSpec FlatModel FlatSpec
  IvfModel IvfProofs PopInst LshModel LshSpec LshProofs HnswModel HnswSpec WideSpec LongerSpec LongerCases WorkModel WorkSpec WorkProofs WorkProofs2 WorkCases.
Import ListNotations.

(** C122.  Vamana: n_hops grows by the number of different points whose neighbour lists were read, n_cmps by the number of
    different accepted points found in those lists that were not starting points.  Every answer was expanded.  With a null
    pointer the answers are the same. *)
Theorem C122_vamana : forall sortf ix dist L res_count filters indices distances hops cmps,
  sorts sortf -> index_ok ix -> 1 <= L -> (forall id, is_nan (dist id) = false) ->
  (filters = [] \/ length (pts_to_labels (ix_labels ix)) = ix_n ix) ->
  res_count <= L + 1 -> res_count <= length indices -> res_count <= length distances ->
  exists acc entries starts expanded compared ids indices' distances',
    filter_test (universal_of (ix_labels ix)) (pts_to_labels (ix_labels ix)) filters acc /\
    (filters = [] -> entries = [ix_start ix]) /\
    (filters <> [] -> length entries <= length filters /\
       forall id, In id entries <-> exists x, In x filters /\ medoid_of (ix_medoids ix) x = Some id) /\
    vamana_search_counted sortf ix dist L res_count filters indices distances (Some (hops, cmps)) =
      Ok (indices', distances', length ids, Some (hops + length expanded, cmps + length compared)) /\
    vamana_search_counted sortf ix dist L res_count filters indices distances None = Ok (indices', distances', length ids, None) /\
    vamana_search sortf ix dist L res_count filters indices distances = Ok (indices', distances', length ids) /\
    reports (ix_n ix) (ix_tags ix) dist indices' distances' ids /\ incl ids expanded /\
    room_for L entries starts /\ work acc (ix_graph ix) (ix_n ix) starts expanded compared /\
    (ix_n ix <= L -> incl (starts ++ compared) expanded).
Proof. exact vamana_work. Qed.
Print Assumptions C122_vamana.

Example C122_vamana_case : index_ok fork_index /\ (forall x, x < ix_n fork_index -> reach (fun _ => true) (ix_graph fork_index) (fun y => y = ix_start fork_index) x) /\
  (forall x l, nth_error (ix_graph fork_index) x = Some l -> length l <= 2) /\
  counted (vamana_search_counted isort fork_index apart 1 1 [] (repeat 0 2) (repeat f32_zero 2) (Some (5, 7))) = Ok (Some (5 + 1, 7 + 2)) /\
  counted (vamana_search_counted isort fork_index apart 2 2 [] (repeat 0 2) (repeat f32_zero 2) (Some (5, 7))) = Ok (Some (5 + 3, 7 + 3)) /\
  counted (vamana_search_counted isort fork_index apart 6 2 [] (repeat 0 2) (repeat f32_zero 2) (Some (5, 7))) = Ok (Some (5 + 6, 7 + 5)).
Proof. exact fork_work. Qed.

(** C122.  The same for the relative neighbourhood graph. *)
Theorem C122_rng : forall sortf ix dist L res_count filters indices distances hops cmps,
  sorts sortf -> index_ok ix -> 1 <= L -> (forall id, is_nan (dist id) = false) ->
  res_count <= L + 1 -> res_count <= length indices -> res_count <= length distances ->
  exists expanded compared ids indices' distances',
    rng_search_counted sortf ix dist L res_count filters indices distances (Some (hops, cmps)) =
      Ok (indices', distances', length ids, Some (hops + length expanded, cmps + length compared)) /\
    rng_search_counted sortf ix dist L res_count filters indices distances None = Ok (indices', distances', length ids, None) /\
    rng_search sortf ix dist L res_count filters indices distances = Ok (indices', distances', length ids) /\
    reports (ix_n ix) (ix_tags ix) dist indices' distances' ids /\ incl ids expanded /\
    work (fun _ => true) (ix_graph ix) (ix_n ix) [ix_start ix] expanded compared.
Proof. exact rng_work. Qed.
Print Assumptions C122_rng.

(** C122.  HNSW: the counters grow by the sums over the levels. *)
Theorem C122_hnsw : forall sortf L rc, sorts sortf -> 1 <= L -> rc <= L ->
  forall inner ix dist filters ind dst hops cmps, levels_ok (ix :: inner) -> (forall id, is_nan (dist id) = false) ->
  rc <= length ind -> rc <= length dst ->
  exists w ws ids ind' dst',
    hnsw_search_counted sortf (ix :: inner) dist L rc filters ind dst (Some (hops, cmps)) =
      Ok (ind', dst', length ids, Some (hops + total v_expanded (w :: ws), cmps + total v_compared (w :: ws))) /\
    hnsw_search_counted sortf (ix :: inner) dist L rc filters ind dst None = Ok (ind', dst', length ids, None) /\
    hnsw_search sortf (ix :: inner) dist L rc filters ind dst = Ok (ind', dst', length ids) /\
    reports (ix_n ix) (ix_tags ix) dist ind' dst' ids /\ incl ids (v_expanded w) /\ descent (ix :: inner) (w :: ws).
Proof. exact hnsw_work. Qed.
Print Assumptions C122_hnsw.

Example C122_hnsw_case : levels_ok hall /\ (forall ix x l, In ix hall -> nth_error (ix_graph ix) x = Some l -> length l <= 1) /\
  descent hall [mkVisit [0; 1] [0; 1; 2] [2]; mkVisit [0] [0; 1; 2] [1; 2]] /\
  counted (hnsw_search_counted isort hall hall_far 2 2 [] (repeat 0 2) (repeat f32_zero 2) (Some (5, 7))) = Ok (Some (5 + (3 + 3), 7 + (1 + 2))).
Proof. exact hall_work. Qed.

(** C122.  IVF: n_cmps grows by the number of different accepted points in the probed lists; n_hops does not change. *)
Theorem C122_ivf : forall popf mbs ix cdist dist probe m filters indices distances hops cmps,
  pops popf -> 1 <= mbs -> ivf_ok ix -> probe <= ivf_nc ix -> 1 <= m ->
  (filters = [] \/ length (pts_to_labels (ivf_labels ix)) = ivf_n ix) ->
  (forall c, is_nan (cdist c) = false) -> (exists c, c < ivf_nc ix /\ flt (cdist c) FLT_MAX = true) ->
  finite_distances (ivf_n ix) dist -> room m indices distances ->
  exists acc probed compared ids indices' distances',
    filter_test (universal_of (ivf_labels ix)) (pts_to_labels (ivf_labels ix)) filters acc /\
    length probed = probe /\ NoDup probed /\ (forall c, In c probed -> c < ivf_nc ix) /\
    is_top_k probe (score cdist (seq 0 (ivf_nc ix))) (score cdist probed) /\
    ivf_search_counted popf mbs ix cdist dist probe m filters indices distances (Some (hops, cmps)) =
      Ok (indices', distances', length ids, Some (hops, cmps + length compared)) /\
    ivf_search_counted popf mbs ix cdist dist probe m filters indices distances None = Ok (indices', distances', length ids, None) /\
    NoDup compared /\ (forall x, In x compared <-> acc x = true /\ exists c l, In c probed /\ nth_error (ivf_inv ix) c = Some l /\ In x l) /\
    incl ids compared /\ holds dist ids indices indices' distances distances'.
Proof. exact ivf_work. Qed.
Print Assumptions C122_ivf.

Example C122_ivf_case : counted (ivf_search_counted pop_all 10 shelf shelf_centers shelf_far 2 2 [] [9; 9] None (Some (5, 7))) = Ok (Some (5, 7 + 4)).
Proof. exact shelf_work. Qed.

(** C122.  LSH: n_cmps grows by the number of different accepted points that share a bucket with the query. *)
Theorem C122_lsh : forall dotf data ts planes ix q dist m filters indices distances hops cmps,
  (ts <= 64)%N -> l_tags ix = seq 0 (l_n ix) -> lsh_new ix -> 1 <= m ->
  (filters = [] \/ length (pts_to_labels (l_labels ix)) = l_n ix) ->
  finite_distances (l_n ix) dist -> room m indices distances ->
  exists acc ix' ix'' compared ids indices' distances',
    filter_test (universal_of (l_labels ix)) (pts_to_labels (l_labels ix)) filters acc /\
    lsh_build dotf data ts planes ix = Ok ix' /\
    lsh_search_counted dotf ix' q dist m filters indices distances (Some (hops, cmps)) =
      Ok (indices', distances', length ids, Some (hops, cmps + length compared), ix'') /\
    lsh_search_counted dotf ix' q dist m filters indices distances None = Ok (indices', distances', length ids, None, ix'') /\
    NoDup compared /\
    (forall id, In id compared <-> id < l_n ix /\ acc id = true /\ collide dotf planes q (data id)) /\
    holds dist ids indices indices' distances distances'.
Proof. exact lsh_work. Qed.
Print Assumptions C122_lsh.

(** C122.  Bounds for one search: no fewer hops than answers, no more hops than starting points and comparisons, no more
    comparisons than R per hop, nor than the points other than the entry point. *)
Theorem C122_bounds_vamana : forall sortf ix dist L res_count filters indices distances R i d count hops cmps,
  sorts sortf -> index_ok ix -> 1 <= L -> (forall id, is_nan (dist id) = false) ->
  (filters = [] \/ length (pts_to_labels (ix_labels ix)) = ix_n ix) ->
  res_count <= L + 1 -> res_count <= length indices -> res_count <= length distances ->
  (forall x l, nth_error (ix_graph ix) x = Some l -> length l <= R) ->
  vamana_search_counted sortf ix dist L res_count filters indices distances (Some (0, 0)) = Ok (i, d, count, Some (hops, cmps)) ->
  count <= hops /\ hops <= Nat.min L (Nat.max 1 (length filters)) + cmps /\ cmps <= ix_n ix /\ cmps <= R * hops /\ (filters = [] -> cmps < ix_n ix).
Proof. exact vamana_work_bounds. Qed.
Print Assumptions C122_bounds_vamana.

(** C122.  And over the levels of an HNSW object. *)
Theorem C122_bounds_hnsw : forall sortf L rc levels dist filters ind dst R i d count hops cmps, sorts sortf -> 1 <= L -> rc <= L ->
  levels_ok levels -> (forall id, is_nan (dist id) = false) -> rc <= length ind -> rc <= length dst ->
  (forall ix x l, In ix levels -> nth_error (ix_graph ix) x = Some l -> length l <= R) ->
  hnsw_search_counted sortf levels dist L rc filters ind dst (Some (0, 0)) = Ok (i, d, count, Some (hops, cmps)) ->
  count <= hops /\ hops <= list_sum (map ix_n levels) /\ cmps <= list_sum (map ix_n levels) /\ cmps <= R * hops.
Proof. exact hnsw_work_bounds. Qed.
Print Assumptions C122_bounds_hnsw.

(** C122.  If the list has room for every point and every point can be reached, a search is a scan: n hops and n - 1 comparisons. *)
Theorem C122_full_list : forall sortf ix dist L res_count indices distances hops cmps,
  sorts sortf -> index_ok ix -> ix_n ix <= L -> (forall id, is_nan (dist id) = false) ->
  res_count <= L + 1 -> res_count <= length indices -> res_count <= length distances ->
  (forall x, x < ix_n ix -> reach (fun _ => true) (ix_graph ix) (fun y => y = ix_start ix) x) ->
  exists i d count, vamana_search_counted sortf ix dist L res_count [] indices distances (Some (hops, cmps)) =
    Ok (i, d, count, Some (hops + ix_n ix, cmps + (ix_n ix - 1))).
Proof. exact vamana_work_full. Qed.
Print Assumptions C122_full_list.

(** C122.  Without ties, a longer list never means fewer hops or comparisons. *)
Theorem C122_longer_list : forall sortf ix dist L L' k k' filters indices distances indices' distances' hops cmps,
  sorts sortf -> index_ok ix -> 1 <= L -> L <= L' -> (forall id, is_nan (dist id) = false) -> no_ties (ix_n ix) dist ->
  (filters = [] \/ length (pts_to_labels (ix_labels ix)) = ix_n ix) -> length filters <= L ->
  k <= L + 1 -> k' <= L' + 1 -> k <= length indices -> k <= length distances -> k' <= length indices' -> k' <= length distances' ->
  exists r h c r' h' c', vamana_search_counted sortf ix dist L k filters indices distances (Some (hops, cmps)) = Ok (r, Some (hops + h, cmps + c)) /\
    vamana_search_counted sortf ix dist L' k' filters indices' distances' (Some (hops, cmps)) = Ok (r', Some (hops + h', cmps + c')) /\
    h <= h' /\ c <= c'.
Proof. exact vamana_work_longer. Qed.
Print Assumptions C122_longer_list.

(** n_cmps is not the number of distances computed: those of the starting points are left out. *)
Theorem C122_entry_refuted : exists ix dist, index_ok ix /\ (forall id, is_nan (dist id) = false) /\
  vamana_search_counted isort ix dist 10 1 [] [0] [f32_zero] (Some (0, 0)) = Ok ([100], [dist 0], 1, Some (1, 0)) /\
  hnsw_search_counted isort [ix] dist 10 1 [] [0] [f32_zero] (Some (0, 0)) = Ok ([100], [dist 0], 1, Some (1, 0)).
Proof. exact entry_not_counted. Qed.
Print Assumptions C122_entry_refuted.

(** Nor are the distances to the centres of an IVF index counted: of five distances, two are. *)
Theorem C122_centers_refuted : exists ix cdist dist, ivf_ok ix /\ ivf_nc ix = 3 /\ finite_distances (ivf_n ix) dist /\
  ivf_search_counted pop_all 10 ix cdist dist 1 1 [] [9] None (Some (0, 0)) = Ok ([4], None, 1, Some (0, 2)).
Proof. exact centers_not_counted. Qed.
Print Assumptions C122_centers_refuted.
