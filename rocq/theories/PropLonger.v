(** * Theorems: a longer search list, more answers, more probed clusters (C120).

    [no_ties n dist]: no two of the [n] points are equally far from the query.  [no_worse dist ids ids']: wherever [ids] has a
    point, [ids'] has one that is no farther.  [hits truth ids]: how many of [ids] are in [truth] (LongerSpec.v).
    [reports n tags dist indices distances ids]: the output arrays show the points [ids] (SearchSpec.v);
    [FlatSpec.holds] says the same for the indices that write positions (FlatSpec.v). *)
From Coq Require Import ZArith String List Arith Bool Floats.SpecFloat.
From Verif Require Import Base Float32 PoolModel SortSpec SortInst GraphSpec GreedyModel SearchModel SearchSpec ClosestModel ClosestSpec FlatModel FlatSpec
  IvfModel IvfProofs PopInst HnswModel HnswSpec PruneModel VamanaModel BuildWitness WideSpec LongerSpec LongerProofs LongerProofs2 LongerCases LongerBuilt.
Import ListNotations.

(** C120.  One graph search with a list of L and with a longer one, from the same starting points, none of them cut: the walk
    with L is the beginning of the walk with L', and position by position the longer list holds a point that is no farther. *)
Theorem C120_walk : forall sortf n dist accept acc L L' g ids, sorts sortf -> 1 <= L -> L <= L' -> (forall id, is_nan (dist id) = false) -> no_ties n dist ->
  (forall id, id < n -> accept id = Ok (acc id)) -> graph_ok n g -> (forall id, In id ids -> id < n) -> length ids <= L ->
  exists st st', greedy_search sortf n dist accept L g ids = Ok st /\ greedy_search sortf n dist accept L' g ids = Ok st' /\
    (exists later, rev (g_exp st') = rev (g_exp st) ++ later) /\ g_hops st <= g_hops st' /\ p_cmps (g_pool st) <= p_cmps (g_pool st') /\
    incl (p_ins (g_pool st)) (p_ins (g_pool st')) /\ no_worse dist (map nid (found st)) (map nid (found st')).
Proof. exact greedy_longer. Qed.
Print Assumptions C120_walk.

(** C120.  Vamana search: a longer list, and as many or more answers, gives no worse answers. *)
Theorem C120_longer_list : forall sortf ix dist L L' k k' filters indices distances indices' distances',
  sorts sortf -> index_ok ix -> 1 <= L -> L <= L' -> (forall id, is_nan (dist id) = false) -> no_ties (ix_n ix) dist ->
  (filters = [] \/ length (pts_to_labels (ix_labels ix)) = ix_n ix) -> length filters <= L ->
  k <= L + 1 -> k' <= L' + 1 -> k <= k' -> k <= length indices -> k <= length distances -> k' <= length indices' -> k' <= length distances' ->
  exists ids i1 d1 ids' i2 d2,
    vamana_search sortf ix dist L k filters indices distances = Ok (i1, d1, length ids) /\ reports (ix_n ix) (ix_tags ix) dist i1 d1 ids /\
    vamana_search sortf ix dist L' k' filters indices' distances' = Ok (i2, d2, length ids') /\ reports (ix_n ix) (ix_tags ix) dist i2 d2 ids' /\
    no_worse dist ids ids'.
Proof. exact vamana_longer. Qed.
Print Assumptions C120_longer_list.

Example C120_longer_list_case : index_ok fork_index /\ no_ties (ix_n fork_index) apart /\ nearest_among 2 (fun x => x < ix_n fork_index) apart [5; 0] /\
  seen (vamana_search isort fork_index apart 1 1 [] (repeat 0 2) (repeat f32_zero 2)) = Ok ([100; 0], 1) /\
  seen (vamana_search isort fork_index apart 2 2 [] (repeat 0 2) (repeat f32_zero 2)) = Ok ([105; 100], 2).
Proof. exact fork_case. Qed.

(** C120.  The same for the relative neighbourhood graph. *)
Theorem C120_longer_list_rng : forall sortf ix dist L L' k k' filters filters' indices distances indices' distances',
  sorts sortf -> index_ok ix -> 1 <= L -> L <= L' -> (forall id, is_nan (dist id) = false) -> no_ties (ix_n ix) dist ->
  k <= L + 1 -> k' <= L' + 1 -> k <= k' -> k <= length indices -> k <= length distances -> k' <= length indices' -> k' <= length distances' ->
  exists ids i1 d1 ids' i2 d2,
    rng_search sortf ix dist L k filters indices distances = Ok (i1, d1, length ids) /\ reports (ix_n ix) (ix_tags ix) dist i1 d1 ids /\
    rng_search sortf ix dist L' k' filters' indices' distances' = Ok (i2, d2, length ids') /\ reports (ix_n ix) (ix_tags ix) dist i2 d2 ids' /\
    no_worse dist ids ids'.
Proof. exact rng_longer. Qed.
Print Assumptions C120_longer_list_rng.

(** C120.  With the same list, ties or not: the answers for k are the first k of the answers for a larger k. *)
Theorem C120_more_answers : forall sortf ix dist L k k' filters indices distances indices' distances',
  sorts sortf -> index_ok ix -> 1 <= L -> (forall id, is_nan (dist id) = false) ->
  (filters = [] \/ length (pts_to_labels (ix_labels ix)) = ix_n ix) -> k <= k' -> k' <= L + 1 ->
  k <= length indices -> k <= length distances -> k' <= length indices' -> k' <= length distances' ->
  exists ids i1 d1 i2 d2,
    vamana_search sortf ix dist L k filters indices distances = Ok (i1, d1, length (firstn k ids)) /\ reports (ix_n ix) (ix_tags ix) dist i1 d1 (firstn k ids) /\
    vamana_search sortf ix dist L k' filters indices' distances' = Ok (i2, d2, length ids) /\ reports (ix_n ix) (ix_tags ix) dist i2 d2 ids.
Proof. exact vamana_more. Qed.
Print Assumptions C120_more_answers.

(** C120.  So the recall against the exact answer never falls when L grows. *)
Theorem C120_recall : forall sortf ix dist L L' k indices distances truth,
  sorts sortf -> index_ok ix -> 1 <= L -> L <= L' -> (forall id, is_nan (dist id) = false) -> no_ties (ix_n ix) dist ->
  k <= L -> k <= length indices -> k <= length distances -> nearest_among k (fun x => x < ix_n ix) dist truth ->
  exists ids i1 d1 ids' i2 d2,
    vamana_search sortf ix dist L k [] indices distances = Ok (i1, d1, length ids) /\ reports (ix_n ix) (ix_tags ix) dist i1 d1 ids /\
    vamana_search sortf ix dist L' k [] indices distances = Ok (i2, d2, length ids') /\ reports (ix_n ix) (ix_tags ix) dist i2 d2 ids' /\
    hits truth ids <= hits truth ids'.
Proof. exact vamana_recall. Qed.
Print Assumptions C120_recall.

(** C120.  IVF search: probing more clusters gives no worse answers. *)
Theorem C120_more_probes : forall popf mbs ix cdist dist probe probe' m m' filters indices distances indices' distances',
  pops popf -> 1 <= mbs -> ivf_ok ix -> probe <= probe' -> probe' <= ivf_nc ix -> 1 <= m -> m <= m' ->
  (filters = [] \/ length (pts_to_labels (ivf_labels ix)) = ivf_n ix) ->
  (forall c, is_nan (cdist c) = false) -> no_ties (ivf_nc ix) cdist -> (exists c, c < ivf_nc ix /\ flt (cdist c) FLT_MAX = true) ->
  finite_distances (ivf_n ix) dist -> room m indices distances -> room m' indices' distances' ->
  exists ids i1 d1 c1 ids' i2 d2 c2,
    ivf_search popf mbs ix cdist dist probe m filters indices distances = Ok (i1, d1, length ids, c1) /\ FlatSpec.holds dist ids indices i1 distances d1 /\
    ivf_search popf mbs ix cdist dist probe' m' filters indices' distances' = Ok (i2, d2, length ids', c2) /\ FlatSpec.holds dist ids' indices' i2 distances' d2 /\
    no_worse dist ids ids'.
Proof. exact ivf_longer. Qed.
Print Assumptions C120_more_probes.

Example C120_more_probes_case : ivf_ok shelf /\ no_ties (ivf_nc shelf) shelf_centers /\ finite_distances (ivf_n shelf) shelf_far /\
  (do r <- ivf_search pop_all 10 shelf shelf_centers shelf_far 1 2 [] [9; 9] None; Ok (fst r)) = Ok ([4; 1], None, 2) /\
  (do r <- ivf_search pop_all 10 shelf shelf_centers shelf_far 2 2 [] [9; 9] None; Ok (fst r)) = Ok ([0; 4], None, 2) /\
  (do r <- ivf_search pop_all 10 shelf shelf_centers shelf_far 3 2 [] [9; 9] None; Ok (fst r)) = Ok ([5; 0], None, 2) .
Proof. exact shelf_case. Qed.

(** With ties it fails: a longer list can give a worse answer. *)
Theorem C120_ties_refuted : exists ix dist L L' indices distances, index_ok ix /\ (forall id, is_nan (dist id) = false) /\ 1 <= L /\ L < L' /\
  exists i1 d1 i2 d2 x y, vamana_search isort ix dist L 1 [] indices distances = Ok (i1, d1, 1) /\ reports (ix_n ix) (ix_tags ix) dist i1 d1 [x] /\
    vamana_search isort ix dist L' 1 [] indices distances = Ok (i2, d2, 1) /\ reports (ix_n ix) (ix_tags ix) dist i2 d2 [y] /\ flt (dist x) (dist y) = true.
Proof. exact ties_worse. Qed.
Print Assumptions C120_ties_refuted.

(** It fails on an index that the build produces: sixteen points of the space, L 10, R 2, C 750, alpha 1.2.  A search with a
    list of 2 finds a point at squared distance 14, one with a list of 3 only a point at 50. *)
Theorem C120_ties_built_refuted : exists pts q prm v ix md,
  vinput_ok v /\ sp_pd (vi_sp v) = (fun a b => apart2 (pts a) (pts b)) /\ vi_prm v = prm /\ bp_L prm = 10 /\ bp_R prm = 2 /\ bp_C prm = 750 /\ bp_alpha prm = f12 /\
  vamana_build v = Ok (ix, md) /\
  vamana_search (vi_sort v) ix (fun id => apart2 (pts id) q) 2 1 [] [0] [f32_zero] = Ok ([108], [f32_of_Z 14], 1) /\
  vamana_search (vi_sort v) ix (fun id => apart2 (pts id) q) 3 1 [] [0] [f32_zero] = Ok ([102], [f32_of_Z 50], 1).
Proof. exact built_worse. Qed.
Print Assumptions C120_ties_built_refuted.

(** With more labels in the filter than the list has room for it fails too, even without ties. *)
Theorem C120_entries_refuted : exists ix dist fs L L' indices distances, index_ok ix /\ (forall id, is_nan (dist id) = false) /\ no_ties (ix_n ix) dist /\
  length (pts_to_labels (ix_labels ix)) = ix_n ix /\ length fs = L + 1 /\ 1 <= L /\ L < L' /\
  exists i1 d1 i2 d2 x y, vamana_search isort ix dist L 1 fs indices distances = Ok (i1, d1, 1) /\ reports (ix_n ix) (ix_tags ix) dist i1 d1 [x] /\
    vamana_search isort ix dist L' 1 fs indices distances = Ok (i2, d2, 1) /\ reports (ix_n ix) (ix_tags ix) dist i2 d2 [y] /\ flt (dist x) (dist y) = true.
Proof. exact doors_worse. Qed.
Print Assumptions C120_entries_refuted.

(** It fails for HNSW, without ties and filters; and there the first answer depends on how many are asked for. *)
Theorem C120_hnsw_refuted : exists levels dist indices distances, levels_ok levels /\ (forall id, is_nan (dist id) = false) /\ no_ties 4 dist /\
  match levels with ix :: _ => ix_n ix = 4 /\ ix_tags ix = seq 100 4 | [] => False end /\
  seen (hnsw_search isort levels dist 1 1 [] indices distances) = Ok ([102; 0], 1) /\
  seen (hnsw_search isort levels dist 2 1 [] indices distances) = Ok ([101; 0], 1) /\
  seen (hnsw_search isort levels dist 2 2 [] indices distances) = Ok ([102; 101], 2) /\ flt (dist 2) (dist 1) = true.
Proof. exact hall_worse. Qed.
Print Assumptions C120_hnsw_refuted.
