(** * Theorems: the table of work the search tools print (C125).

    [shows_mean], [shows_999], [sorts_doubles]: TableSpec.v; [ranked]: StatsSpec.v; [work], [descent], [total]: WorkSpec.v.
    [order] is the order of the parallel loop, [tc] and [th] the orders of the additions. *)
From Coq Require Import ZArith NArith Reals List Arith Bool Permutation Floats.SpecFloat.
From Verif Require Import Base Float32 DistSpec DistModel LloydModel RealSpec NormModel StatsModel StatsSpec PoolModel TopKSpec SortSpec SortInst GraphSpec GreedyModel SearchModel SearchSpec FilterSpec ClosestModel ClosestSpec FlatModel FlatSpec IvfModel IvfProofs PopInst HnswModel HnswSpec
  LongerSpec LongerCases WorkModel WorkSpec TableModel TableSpec TableProofs TableProofs2 TableProofs3 TableCases.
Import ListNotations.

(** C125.  search_vamana: the last four columns show the mean and the 99.9 percent rank of the comparisons and hops of the
    searches of this row, each counted once. *)
Theorem C125_vamana : forall sortf sortd tc th ix dist nq L recall_at filters order,
  sorts sortf -> sorts_doubles sortd -> index_ok ix -> 1 <= L -> recall_at <= L + 1 -> (forall q id, is_nan (dist q id) = false) ->
  (filters = [] \/ length (pts_to_labels (ix_labels ix)) = ix_n ix) ->
  1 <= nq -> (Z.of_nat nq <= 2 ^ 32)%Z -> (Z.of_nat (nq * ix_n ix) <= 2 ^ 53)%Z ->
  Permutation order (seq 0 nq) -> Permutation (red_items tc) (seq 0 nq) -> Permutation (red_items th) (seq 0 nq) ->
  exists r works, vamana_columns sortf sortd tc th ix dist nq L recall_at filters order = Ok r /\ length works = nq /\
    (forall q w, nth_error works q = Some w -> exists acc ind dst count,
      filter_test (universal_of (ix_labels ix)) (pts_to_labels (ix_labels ix)) filters acc /\
      vamana_search sortf ix (dist q) L recall_at filters (repeat 0 recall_at) (repeat f32_zero recall_at) = Ok (ind, dst, count) /\
      vamana_search_counted sortf ix (dist q) L recall_at filters (repeat 0 recall_at) (repeat f32_zero recall_at) (Some (0, 0)) = Ok (ind, dst, count, Some (length (v_expanded w), length (v_compared w))) /\
      count <= length (v_expanded w) /\
      work acc (ix_graph ix) (ix_n ix) (v_starts w) (v_expanded w) (v_compared w)) /\
    shows_mean (mean_cmps r) (map (fun w => length (v_compared w)) works) /\ shows_mean (mean_hops r) (map (fun w => length (v_expanded w)) works) /\
    shows_999 (cmps_999 r) (map (fun w => length (v_compared w)) works) /\ shows_999 (hops_999 r) (map (fun w => length (v_expanded w)) works).
Proof. exact vamana_table. Qed.
Print Assumptions C125_vamana.

Example C125_vamana_case : sorts by_distance /\ sorts_doubles sortd /\ index_ok fork_index /\ (forall q id, is_nan (two_queries q id) = false) /\ (forall q, no_ties (ix_n fork_index) (two_queries q)) /\
  (forall x l, nth_error (ix_graph fork_index) x = Some l -> length l <= 2) /\ (forall x, x < ix_n fork_index -> reach (fun _ => true) (ix_graph fork_index) (fun y => y = ix_start fork_index) x) /\
  Permutation (red_items sum2) (seq 0 2) /\
  vamana_columns by_distance sortd sum2 sum2 fork_index two_queries 2 1 1 [] [1; 0] = Ok (mkWorkRow (f32_int 2) (f32_int 1) (f32_int 2) (f32_int 1)) /\
  vamana_columns by_distance sortd sum2 sum2 fork_index two_queries 2 2 1 [] [0; 1] = Ok (mkWorkRow (f32_int 3) (S754_finite false 10485760 (-22)) (f32_int 3) (f32_int 3)) /\
  vamana_columns by_distance sortd sum2 sum2 fork_index two_queries 2 6 1 [] [1; 0] = Ok (mkWorkRow (f32_int 5) (f32_int 6) (f32_int 5) (f32_int 6)).
Proof. exact fork_table. Qed.

(** C125.  search_relng. *)
Theorem C125_rng : forall sortf sortd tc th ix dist nq L recall_at filters order,
  sorts sortf -> sorts_doubles sortd -> index_ok ix -> 1 <= L -> recall_at <= L + 1 -> (forall q id, is_nan (dist q id) = false) ->
  1 <= nq -> (Z.of_nat nq <= 2 ^ 32)%Z -> (Z.of_nat (nq * ix_n ix) <= 2 ^ 53)%Z ->
  Permutation order (seq 0 nq) -> Permutation (red_items tc) (seq 0 nq) -> Permutation (red_items th) (seq 0 nq) ->
  exists r works, rng_columns sortf sortd tc th ix dist nq L recall_at filters order = Ok r /\ length works = nq /\
    (forall q w, nth_error works q = Some w -> exists ind dst count,
      rng_search_counted sortf ix (dist q) L recall_at filters (repeat 0 recall_at) (repeat f32_zero recall_at) (Some (0, 0)) = Ok (ind, dst, count, Some (length (v_expanded w), length (v_compared w))) /\
      count <= length (v_expanded w) /\ v_starts w = [ix_start ix] /\
      work (fun _ => true) (ix_graph ix) (ix_n ix) (v_starts w) (v_expanded w) (v_compared w)) /\
    shows_mean (mean_cmps r) (map (fun w => length (v_compared w)) works) /\ shows_mean (mean_hops r) (map (fun w => length (v_expanded w)) works) /\
    shows_999 (cmps_999 r) (map (fun w => length (v_compared w)) works) /\ shows_999 (hops_999 r) (map (fun w => length (v_expanded w)) works).
Proof. exact rng_table. Qed.
Print Assumptions C125_rng.

(** C125.  search_hnsw: sums over the levels. *)
Theorem C125_hnsw : forall sortf sortd tc th levels dist nq L recall_at filters order,
  sorts sortf -> sorts_doubles sortd -> levels_ok levels -> 1 <= L -> recall_at <= L -> (forall q id, is_nan (dist q id) = false) ->
  1 <= nq -> (Z.of_nat nq <= 2 ^ 32)%Z -> (Z.of_nat (nq * list_sum (map ix_n levels)) <= 2 ^ 53)%Z ->
  Permutation order (seq 0 nq) -> Permutation (red_items tc) (seq 0 nq) -> Permutation (red_items th) (seq 0 nq) ->
  exists r works, hnsw_columns sortf sortd tc th levels dist nq L recall_at filters order = Ok r /\ length works = nq /\
    (forall q ws, nth_error works q = Some ws -> exists ind dst count,
      hnsw_search_counted sortf levels (dist q) L recall_at filters (repeat 0 recall_at) (repeat f32_zero recall_at) (Some (0, 0)) = Ok (ind, dst, count, Some (total v_expanded ws, total v_compared ws)) /\
      descent levels ws) /\
    shows_mean (mean_cmps r) (map (total v_compared) works) /\ shows_mean (mean_hops r) (map (total v_expanded) works) /\
    shows_999 (cmps_999 r) (map (total v_compared) works) /\ shows_999 (hops_999 r) (map (total v_expanded) works).
Proof. exact hnsw_table. Qed.
Print Assumptions C125_hnsw.

(** C125.  search_ivf: the columns of the hops are zero whatever the search does. *)
Theorem C125_ivf : forall popf mbs sortd tc th ix cdist dist nq probe recall_at filters order,
  pops popf -> 1 <= mbs -> sorts_doubles sortd -> ivf_ok ix -> probe <= ivf_nc ix -> 1 <= recall_at ->
  (filters = [] \/ length (pts_to_labels (ivf_labels ix)) = ivf_n ix) ->
  (forall q c, is_nan (cdist q c) = false) -> (forall q, exists c, c < ivf_nc ix /\ flt (cdist q c) FLT_MAX = true) -> (forall q, finite_distances (ivf_n ix) (dist q)) ->
  1 <= nq -> (Z.of_nat nq <= 2 ^ 32)%Z -> (Z.of_nat (nq * ivf_n ix) <= 2 ^ 53)%Z ->
  Permutation order (seq 0 nq) -> Permutation (red_items tc) (seq 0 nq) -> Permutation (red_items th) (seq 0 nq) ->
  exists r works, ivf_columns popf mbs sortd tc th ix cdist dist nq probe recall_at filters order = Ok r /\ length works = nq /\
    (forall q compared, nth_error works q = Some compared -> exists acc probed,
      filter_test (universal_of (ivf_labels ix)) (pts_to_labels (ivf_labels ix)) filters acc /\
      length probed = probe /\ NoDup probed /\ is_top_k probe (score (cdist q) (seq 0 (ivf_nc ix))) (score (cdist q) probed) /\
      NoDup compared /\ (forall x, In x compared <-> acc x = true /\ exists c l, In c probed /\ nth_error (ivf_inv ix) c = Some l /\ In x l)) /\
    shows_mean (mean_cmps r) (map (@length nat) works) /\ shows_999 (cmps_999 r) (map (@length nat) works) /\
    real (mean_hops r) = 0%R /\ real (hops_999 r) = 0%R.
Proof. exact ivf_table. Qed.
Print Assumptions C125_ivf.

Example C125_ivf_case : ivf_ok shelf /\ finite_distances (ivf_n shelf) shelf_far /\
  ivf_columns pop_all 10 sortd sum2 sum2 shelf (fun _ => shelf_centers) (fun _ => shelf_far) 2 2 2 [] [1; 0] = Ok (mkWorkRow (f32_int 4) f32_zero (f32_int 4) f32_zero).
Proof. exact shelf_table. Qed.

(** C125.  For any tool: neither the schedule of the loop, nor the order of the additions, nor the sort changes what is printed. *)
Theorem C125_schedule : forall (A : Type) (search : nat -> counters -> res (A * counters)) nq B sortd tc th order sortd' tc' th' order',
  1 <= nq -> (Z.of_nat nq <= 2 ^ 32)%Z -> (Z.of_nat (nq * B) <= 2 ^ 53)%Z -> sorts_doubles sortd -> sorts_doubles sortd' ->
  (forall q, q < nq -> exists a h c, search q (Some (0, 0)) = Ok (a, Some (h, c)) /\ h <= B /\ c <= B) ->
  Permutation order (seq 0 nq) -> Permutation (red_items tc) (seq 0 nq) -> Permutation (red_items th) (seq 0 nq) ->
  Permutation order' (seq 0 nq) -> Permutation (red_items tc') (seq 0 nq) -> Permutation (red_items th') (seq 0 nq) ->
  exists r r', work_columns sortd tc th search nq order = Ok r /\ work_columns sortd' tc' th' search nq order' = Ok r' /\
    (real (mean_cmps r) = real (mean_cmps r') /\ real (mean_hops r) = real (mean_hops r') /\ real (cmps_999 r) = real (cmps_999 r') /\ real (hops_999 r) = real (hops_999 r'))%R.
Proof. exact columns_same. Qed.
Print Assumptions C125_schedule.

(** C125.  Down the table of search_vamana no column falls when the list grows, if no query is equally far from two points. *)
Theorem C125_longer : forall sortf sortd sortd' tc th tc' th' ix dist nq L L' recall_at filters order order',
  sorts sortf -> sorts_doubles sortd -> sorts_doubles sortd' -> index_ok ix -> 1 <= L -> L <= L' -> recall_at <= L + 1 -> (forall q id, is_nan (dist q id) = false) -> (forall q, no_ties (ix_n ix) (dist q)) ->
  (filters = [] \/ length (pts_to_labels (ix_labels ix)) = ix_n ix) -> length filters <= L ->
  1 <= nq -> (Z.of_nat nq <= 2 ^ 32)%Z -> (Z.of_nat (nq * ix_n ix) <= 2 ^ 53)%Z ->
  Permutation order (seq 0 nq) -> Permutation (red_items tc) (seq 0 nq) -> Permutation (red_items th) (seq 0 nq) ->
  Permutation order' (seq 0 nq) -> Permutation (red_items tc') (seq 0 nq) -> Permutation (red_items th') (seq 0 nq) ->
  exists r r', vamana_columns sortf sortd tc th ix dist nq L recall_at filters order = Ok r /\ vamana_columns sortf sortd' tc' th' ix dist nq L' recall_at filters order' = Ok r' /\
    (real (mean_cmps r) <= real (mean_cmps r') /\ real (mean_hops r) <= real (mean_hops r') /\ real (cmps_999 r) <= real (cmps_999 r') /\ real (hops_999 r) <= real (hops_999 r'))%R.
Proof. exact vamana_table_longer. Qed.
Print Assumptions C125_longer.

(** C125.  A row with room for every point shows n hops and n - 1 comparisons exactly. *)
Theorem C125_full : forall sortf sortd tc th ix dist nq L recall_at order,
  sorts sortf -> sorts_doubles sortd -> index_ok ix -> ix_n ix <= L -> recall_at <= L + 1 -> (forall q id, is_nan (dist q id) = false) ->
  (forall x, x < ix_n ix -> reach (fun _ => true) (ix_graph ix) (fun y => y = ix_start ix) x) ->
  1 <= nq -> (Z.of_nat nq <= 2 ^ 29)%Z -> (Z.of_nat (ix_n ix) <= 2 ^ 24)%Z ->
  Permutation order (seq 0 nq) -> Permutation (red_items tc) (seq 0 nq) -> Permutation (red_items th) (seq 0 nq) ->
  exists r, vamana_columns sortf sortd tc th ix dist nq L recall_at [] order = Ok r /\
    (real (mean_cmps r) = INR (ix_n ix - 1) /\ real (mean_hops r) = INR (ix_n ix) /\ real (cmps_999 r) = INR (ix_n ix - 1) /\ real (hops_999 r) = INR (ix_n ix))%R.
Proof. exact vamana_table_full. Qed.
Print Assumptions C125_full.

(** C125.  Bounds on a row of search_vamana without filters; R is the largest degree. *)
Theorem C125_bounds : forall sortf sortd tc th ix dist nq L recall_at R order,
  sorts sortf -> sorts_doubles sortd -> index_ok ix -> 1 <= L -> recall_at <= L + 1 -> (forall q id, is_nan (dist q id) = false) ->
  (forall x l, nth_error (ix_graph ix) x = Some l -> length l <= R) ->
  1 <= nq -> (Z.of_nat nq <= 2 ^ 29)%Z -> (Z.of_nat (ix_n ix) <= 2 ^ 24)%Z ->
  Permutation order (seq 0 nq) -> Permutation (red_items tc) (seq 0 nq) -> Permutation (red_items th) (seq 0 nq) ->
  exists r, vamana_columns sortf sortd tc th ix dist nq L recall_at [] order = Ok r /\
    (0 <= real (mean_cmps r) <= INR (ix_n ix - 1) /\ 0 <= real (mean_hops r) <= INR (ix_n ix) /\
     0 <= real (cmps_999 r) <= INR (ix_n ix - 1) /\ 0 <= real (hops_999 r) <= INR (ix_n ix) /\
     real (cmps_999 r) <= INR R * real (hops_999 r) /\ real (hops_999 r) <= 1 + real (cmps_999 r) /\
     real (mean_cmps r) <= (1 + powerRZ 2 (-21)) * (INR R * real (mean_hops r)))%R.
Proof. exact vamana_table_bounds. Qed.
Print Assumptions C125_bounds.

(** C125.  Up to a thousand queries the 99.9 percent columns show the largest counts. *)
Theorem C125_thousand : forall (A : Type) (search : nat -> counters -> res (A * counters)) nq B sortd tc th order,
  1 <= nq -> nq <= 1000 -> (Z.of_nat B <= 2 ^ 24)%Z -> sorts_doubles sortd ->
  (forall q, q < nq -> exists a h c, search q (Some (0, 0)) = Ok (a, Some (h, c)) /\ h <= B /\ c <= B) ->
  Permutation order (seq 0 nq) -> Permutation (red_items tc) (seq 0 nq) -> Permutation (red_items th) (seq 0 nq) ->
  exists r mh mc, work_columns sortd tc th search nq order = Ok r /\ real (cmps_999 r) = INR mc /\ real (hops_999 r) = INR mh /\
    (forall q a h c, q < nq -> search q (Some (0, 0)) = Ok (a, Some (h, c)) -> h <= mh /\ c <= mc) /\
    (exists q a c, q < nq /\ search q (Some (0, 0)) = Ok (a, Some (mh, c))) /\ (exists q a h, q < nq /\ search q (Some (0, 0)) = Ok (a, Some (h, mc))).
Proof. exact columns_small. Qed.
Print Assumptions C125_thousand.

Example C125_thousand_case : (forall q, exists a h c, one_dear q (Some (0, 0)) = Ok (a, Some (h, c)) /\ h <= 500 /\ c <= 500) /\
  cmps_999_of (work_columns sortd (chain 1000) (chain 1000) one_dear 1000 (seq 0 1000)) = Ok (f32_int 500) /\
  cmps_999_of (work_columns sortd (chain 1100) (chain 1100) one_dear 1100 (seq 0 1100)) = Ok (f32_int 3).
Proof. exact dear_hidden. Qed.

(** For HNSW a longer list may mean less work: 6 comparisons and 7 hops with a list of one, 2 and 4 with a list of two. *)
Theorem C125_hnsw_longer_refuted : exists levels dist, levels_ok levels /\ (forall q id, is_nan (dist q id) = false) /\ (forall q, no_ties 7 (dist q)) /\ list_sum (map ix_n levels) = 10 /\
  hnsw_columns by_distance sortd (RItem 0) (RItem 0) levels dist 1 1 1 [] [0] = Ok (mkWorkRow (f32_int 6) (f32_int 7) (f32_int 6) (f32_int 7)) /\
  hnsw_columns by_distance sortd (RItem 0) (RItem 0) levels dist 1 2 1 [] [0] = Ok (mkWorkRow (f32_int 2) (f32_int 4) (f32_int 2) (f32_int 4)).
Proof. exact stairs_table. Qed.
Print Assumptions C125_hnsw_longer_refuted.
