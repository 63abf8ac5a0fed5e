(** * Theorems: asking for more answers, more hash tables, more hyperplanes (C128).

    [as_near], [as_near_rows], [more_planes]: AskSpec.v; [no_worse], [no_ties], [hits]: LongerSpec.v; [nearest_among]: WideSpec.v;
    [holds], [room], [finite_distances]: FlatSpec.v; [row_of], [last_part]: GtSpec.v. *)
From Coq Require Import NArith ZArith String List Arith Bool Floats.SpecFloat.
From Verif Require Import Base Float32 PoolModel TopKSpec ClosestModel ClosestSpec PopInst FlatModel FlatSpec
  IvfModel IvfProofs LshModel LshSpec LshProofs HeapSpec HeapInst GtModel GtSpec GtProofs WideSpec LongerSpec LongerCases MoreCases AskSpec AskProofs AskCases.
Import ListNotations.
Open Scope string_scope.
Open Scope nat_scope.

(** C128.  IVF: the answers for m and for a larger m' agree in their distances on the first m places, and in the points too if no two are equally far; the same number of points is compared. *)
Theorem C128_ivf : forall popf mbs ix cdist dist probe m m' filters indices distances indices' distances',
  pops popf -> 1 <= mbs -> ivf_ok ix -> probe <= ivf_nc ix -> 1 <= m -> m <= m' ->
  (filters = [] \/ length (pts_to_labels (ivf_labels ix)) = ivf_n ix) ->
  (forall c, is_nan (cdist c) = false) -> (exists c, c < ivf_nc ix /\ flt (cdist c) FLT_MAX = true) ->
  finite_distances (ivf_n ix) dist -> room m indices distances -> room m' indices' distances' ->
  exists ids i1 d1 ids' i2 d2 c,
    ivf_search popf mbs ix cdist dist probe m filters indices distances = Ok (i1, d1, length ids, c) /\ holds dist ids indices i1 distances d1 /\
    ivf_search popf mbs ix cdist dist probe m' filters indices' distances' = Ok (i2, d2, length ids', c) /\ holds dist ids' indices' i2 distances' d2 /\
    as_near dist ids (firstn m ids') /\ (no_ties (ivf_n ix) dist -> ids = firstn m ids').
Proof. exact ivf_ask_more. Qed.
Print Assumptions C128_ivf.

Example C128_ivf_case : ivf_ok rack /\ finite_distances (ivf_n rack) rack_far /\ no_ties (ivf_n rack) rack_far /\
  ivf_search pop_all 10 rack rack_centers rack_far 2 1 [] [9] None = Ok ([0], None, 1, 4) /\
  ivf_search pop_all 10 rack rack_centers rack_far 2 3 [] [9; 9; 9] None = Ok ([0; 3; 1], None, 3, 4) /\
  ivf_search pop_all 10 rack rack_centers rack_far 2 3 ["b"%string] [9; 9; 9] None = Ok ([1; 2; 9], None, 2, 2).
Proof. exact rack_more. Qed.

(** C128.  LSH: the same. *)
Theorem C128_lsh : forall dotf data ts planes ix q dist m m' filters indices distances indices' distances',
  (ts <= 64)%N -> l_tags ix = seq 0 (l_n ix) -> lsh_new ix -> 1 <= m -> m <= m' ->
  (filters = [] \/ length (pts_to_labels (l_labels ix)) = l_n ix) ->
  finite_distances (l_n ix) dist -> room m indices distances -> room m' indices' distances' ->
  exists ix' ids i1 d1 ix1 ids' i2 d2 ix2 c,
    lsh_build dotf data ts planes ix = Ok ix' /\
    lsh_search dotf ix' q dist m filters indices distances = Ok ((i1, d1, length ids, c), ix1) /\ holds dist ids indices i1 distances d1 /\
    lsh_search dotf ix' q dist m' filters indices' distances' = Ok ((i2, d2, length ids', c), ix2) /\ holds dist ids' indices' i2 distances' d2 /\
    as_near dist ids (firstn m ids') /\ (no_ties (l_n ix) dist -> ids = firstn m ids').
Proof. exact lsh_ask_more. Qed.
Print Assumptions C128_lsh.

(** With ties the points can differ: asked for one answer the search names one point, asked for two it puts another first. *)
Theorem C128_ties_refuted : exists ix cdist dist indices indices', ivf_ok ix /\ finite_distances (ivf_n ix) dist /\ (forall a b, dist a = dist b) /\
  ivf_search pop_all 10 ix cdist dist 1 1 [] indices None = Ok ([0], None, 1, 2) /\
  ivf_search pop_all 10 ix cdist dist 1 2 [] indices' None = Ok ([1; 0], None, 2, 2).
Proof. exact ties_other. Qed.
Print Assumptions C128_ties_refuted.

(** C128.  LSH: an index with more tables behind the same first ones gives no worse answers, no fewer of them, and compares no fewer points. *)
Theorem C128_tables : forall dotf data ts planes more ix q dist m m' filters indices distances indices' distances',
  (ts <= 64)%N -> l_tags ix = seq 0 (l_n ix) -> lsh_new ix -> 1 <= m -> m <= m' ->
  (filters = [] \/ length (pts_to_labels (l_labels ix)) = l_n ix) ->
  finite_distances (l_n ix) dist -> room m indices distances -> room m' indices' distances' ->
  exists ix1 ids i1 d1 c1 ix1' ix2 ids' i2 d2 c2 ix2',
    lsh_build dotf data ts planes ix = Ok ix1 /\ lsh_build dotf data ts (planes ++ more) ix = Ok ix2 /\
    lsh_search dotf ix1 q dist m filters indices distances = Ok ((i1, d1, length ids, c1), ix1') /\ holds dist ids indices i1 distances d1 /\
    lsh_search dotf ix2 q dist m' filters indices' distances' = Ok ((i2, d2, length ids', c2), ix2') /\ holds dist ids' indices' i2 distances' d2 /\
    no_worse dist ids ids' /\ c1 <= c2.
Proof. exact lsh_more_tables. Qed.
Print Assumptions C128_tables.

Example C128_tables_case : l_tags quarters = seq 0 (l_n quarters) /\ lsh_new quarters /\ finite_distances (l_n quarters) quarter_far /\ no_ties (l_n quarters) quarter_far /\
  answers [[across1]] 2 = Ok ([0; 2], None, 2, 2) /\ answers [[across1]; [across2]] 2 = Ok ([1; 0], None, 2, 3) /\
  answers [[across1]; [across2]] 3 = Ok ([1; 0; 2], None, 3, 3) /\ answers [] 2 = Ok ([9; 9], None, 0, 0).
Proof. exact tables_case. Qed.

(** C128.  So its recall against the exact answer never falls. *)
Theorem C128_tables_recall : forall dotf data ts planes more ix q dist k indices distances truth,
  (ts <= 64)%N -> l_tags ix = seq 0 (l_n ix) -> lsh_new ix -> 1 <= k ->
  finite_distances (l_n ix) dist -> no_ties (l_n ix) dist -> room k indices distances -> nearest_among k (fun x => x < l_n ix) dist truth ->
  exists ix1 ids i1 d1 c1 ix1' ix2 ids' i2 d2 c2 ix2',
    lsh_build dotf data ts planes ix = Ok ix1 /\ lsh_build dotf data ts (planes ++ more) ix = Ok ix2 /\
    lsh_search dotf ix1 q dist k [] indices distances = Ok ((i1, d1, length ids, c1), ix1') /\ holds dist ids indices i1 distances d1 /\
    lsh_search dotf ix2 q dist k [] indices distances = Ok ((i2, d2, length ids', c2), ix2') /\ holds dist ids' indices i2 distances d2 /\
    hits truth ids <= hits truth ids'.
Proof. exact lsh_tables_recall. Qed.
Print Assumptions C128_tables_recall.

(** C128.  LSH: more hyperplanes in the tables never give a better answer, and compare no more points. *)
Theorem C128_planes : forall dotf data ts ts' planes planes' ix q dist m filters indices distances,
  (ts <= 64)%N -> (ts' <= 64)%N -> more_planes planes planes' -> l_tags ix = seq 0 (l_n ix) -> lsh_new ix -> 1 <= m ->
  (filters = [] \/ length (pts_to_labels (l_labels ix)) = l_n ix) -> finite_distances (l_n ix) dist -> room m indices distances ->
  exists ix1 ids i1 d1 c1 ix1' ix2 ids' i2 d2 c2 ix2',
    lsh_build dotf data ts planes ix = Ok ix1 /\ lsh_build dotf data ts' planes' ix = Ok ix2 /\
    lsh_search dotf ix1 q dist m filters indices distances = Ok ((i1, d1, length ids, c1), ix1') /\ holds dist ids indices i1 distances d1 /\
    lsh_search dotf ix2 q dist m filters indices distances = Ok ((i2, d2, length ids', c2), ix2') /\ holds dist ids' indices i2 distances d2 /\
    no_worse dist ids' ids /\ c2 <= c1.
Proof. exact lsh_more_planes. Qed.
Print Assumptions C128_planes.

Example C128_planes_case : more_planes [[across1]; [across2]] [[across1; across2]; [across2]] /\ more_planes [[across1]] [[across1; across2]] /\
  answers [[across1; across2]; [across2]] 2 = Ok ([1; 0], None, 2, 2) /\ answers [[across1; across2]] 2 = Ok ([0; 9], None, 1, 1).
Proof. exact planes_case. Qed.

(** They can lose the nearest point. *)
Theorem C128_planes_refuted : exists planes planes' a b, more_planes planes planes' /\ answers planes 1 = Ok ([a], None, 1, 2) /\ answers planes' 1 = Ok ([b], None, 1, 1) /\
  flt (quarter_far a) (quarter_far b) = true.
Proof. exact planes_lose. Qed.
Print Assumptions C128_planes_refuted.

(** C128.  Ground truth in memory: the rows for k are the first k places of the rows for a larger k, whatever the queues, batch sizes and orders of the loops. *)
Theorem C128_knn : forall pushf takef pushf' takef' bs bs' k k' npoints nq dmat orders orders' out0 out0', heap_ok pushf takef -> heap_ok pushf' takef' ->
  (forall q p, is_nan (dmat q p) = false) -> 1 <= bs -> 1 <= bs' -> 1 <= k -> k <= k' -> k' <= npoints -> batch_orders nq bs orders -> batch_orders nq bs' orders' ->
  length out0 = nq * k -> length out0' = nq * k' ->
  exists out out', exact_knn pushf takef bs k npoints nq dmat orders out0 = Ok out /\ exact_knn pushf' takef' bs' k' npoints nq dmat orders' out0' = Ok out' /\
    forall q, q < nq -> as_near_rows (row_of k q out) (firstn k (row_of k' q out')) /\ (no_ties npoints (dmat q) -> row_of k q out = firstn k (row_of k' q out')).
Proof. exact knn_ask_more. Qed.
Print Assumptions C128_knn.

Example C128_knn_case : no_ties 5 (gt_far 0) /\ no_ties 5 (gt_far 1) /\ batch_orders 2 2 (fun b => seq (b * 2) (min 2 (2 - b * 2))) /\
  match exact_knn heap_push heap_take 2 1 5 2 gt_far (fun b => seq (b * 2) (min 2 (2 - b * 2))) (repeat (0, f32_zero) 2) with Ok out => map fst out = [0; 1] | _ => False end /\
  match exact_knn heap_push heap_take 2 3 5 2 gt_far (fun b => seq (b * 2) (min 2 (2 - b * 2))) (repeat (0, f32_zero) 6) with Ok out => map fst out = [0; 3; 1; 1; 4; 2] | _ => False end.
Proof. exact truth_case. Qed.

(** C128.  Ground truth over parts of the data: the same for the k that is really delivered, also when the parts have different sizes. *)
Theorem C128_truth : forall pushf takef sortf bs ps ps' n nq k k' dmat orders orders', heap_ok pushf takef -> sorts_pairs sortf ->
  (forall q p, is_nan (dmat q p) = false) -> 1 <= bs -> 1 <= ps -> 1 <= ps' -> 1 <= n -> 1 <= k -> 1 <= k' ->
  min k (last_part n ps) <= min k' (last_part n ps') -> (forall p, batch_orders nq bs (orders p)) -> (forall p, batch_orders nq bs (orders' p)) ->
  exists j j' out out', ground_truth pushf takef sortf bs ps n nq k dmat orders = Ok (j, out) /\ ground_truth pushf takef sortf bs ps' n nq k' dmat orders' = Ok (j', out') /\
    j <= j' /\ forall q, q < nq -> as_near_rows (row_of j q out) (firstn j (row_of j' q out')) /\ (no_ties n (dmat q) -> row_of j q out = firstn j (row_of j' q out')).
Proof. exact truth_ask_more. Qed.
Print Assumptions C128_truth.
