(** * Theorems: building an IVF index, with the training of its centres (C118).

    [rows] are the points as they are stored, [conv] the conversion to float, [rate] the training rate, [dr] what the random
    generators give and [m] how BLAS, the priority queue and the parallel loops choose (TrainModel.v, TrainSpec.v);
    [sample_of]: the points drawn for the training.  [objective data centers]: the sum of the squared distances to the
    nearest centre, in exact arithmetic (KmeansSpec.v).  All vectors have squared norms up to [B]. *)
From Coq Require Import NArith ZArith Reals String List Arith Bool Sorting.Permutation Floats.SpecFloat.
From Verif Require Import Base Float32 PoolModel TopKSpec FilterSpec SearchSpec SearchModel ClosestModel ClosestSpec FlatModel FlatSpec IvfModel PqModel DivFacts DistSpec RealSpec LloydModel RandModel BlasModel BlasSpec BlasCases PopInst KmeansModel KmeansSpec KmeansCases TrainModel TrainSpec TrainProofs TrainProofs2 TrainCases.
Import ListNotations.
Local Open Scope R_scope.

(** C118.  From a sample that is not empty the build ends with [nc] centres and lists that hold every point once, each point
    at a nearest centre up to an error bound; the centres serve the sample about as well as the starting centres, which are
    points of the sample, or better. *)
Theorem C118_build : forall m dr mbs csz (conv : N -> f32) dim nc rate (rows : list (list N)) B, let frows := map (map conv) rows in let train := sample_of rate dr frows in
  machine_ok dim (length rows) mbs (4 * B) m -> draws_ok dr -> (1 <= mbs)%nat -> (1 <= csz)%nat -> (1 <= nc)%nat -> (Z.of_nat dim <= 2 ^ 20)%Z ->
  vectors dim B frows -> 1 <= B <= powerRZ 2 98 -> train <> [] -> few_or_distinct dr (length train) nc ->
  exists seeds centers inv, ivf_train_build m dr (nc - 1) mbs csz conv dim (length rows) nc rate (concat rows) [] = Ok (centers, inv) /\
    length seeds = nc /\ (forall s, In s seeds -> In s train) /\
    length centers = nc /\ vectors dim (4 * B) centers /\
    objective train centers <= objective train seeds + 10 * (INR (length train) * ((INR dim + 4) * powerRZ 2 (-16) * B)) /\
    length inv = nc /\ Permutation (concat inv) (seq 0 (length rows)) /\
    (forall c l j c', nth_error inv c = Some l -> In j l -> (c' < nc)%nat ->
       exact_l2 (nth j frows []) (nth c centers []) <= exact_l2 (nth j frows []) (nth c' centers []) + (INR dim + 4) * powerRZ 2 (-16) * B) /\
    lists_cost frows centers inv <= objective frows centers + INR (length rows) * ((INR dim + 4) * powerRZ 2 (-16) * B).
Proof. exact build_ok. Qed.
Print Assumptions C118_build.

Example C118_build_case : machine_ok 2 (length tr_rows) 2 (4 * 1000) tr_machine /\ draws_ok tr_draws /\ vectors 2 1000 (map (map tr_conv) tr_rows) /\ 1 <= 1000 <= powerRZ 2 98 /\
  length (sample_of tr_half tr_draws (map (map tr_conv) tr_rows)) = 5%nat /\ few_or_distinct tr_draws 5 2 /\
  exists centers, ivf_train_build tr_machine tr_draws 1 2 3 tr_conv 2 6 2 tr_half (concat tr_rows) [] = Ok (centers, [[2; 3; 4]; [0; 1; 5]]%nat) /\
    centers = map ints [[11; 1]; [1; 0]]%Z.
Proof. exact tr_hyps. Qed.

(** C118.  With a training rate of 1 or more every point is in the sample, and the sum of the squared distances of the points
    to the centres of their lists is at most that of the starting centres, up to an error bound. *)
Theorem C118_build_all : forall m dr mbs csz (conv : N -> f32) dim nc rate (rows : list (list N)) B, let frows := map (map conv) rows in
  machine_ok dim (length rows) mbs (4 * B) m -> draws_ok dr -> (1 <= mbs)%nat -> (1 <= csz)%nat -> (1 <= nc)%nat -> (Z.of_nat dim <= 2 ^ 20)%Z ->
  vectors dim B frows -> 1 <= B <= powerRZ 2 98 -> rows <> [] -> few_or_distinct dr (length rows) nc -> SFltb (f64_of_f32 rate) f64_one = false ->
  exists seeds centers inv, ivf_train_build m dr (nc - 1) mbs csz conv dim (length rows) nc rate (concat rows) [] = Ok (centers, inv) /\
    length seeds = nc /\ (forall s, In s seeds -> In s frows) /\
    lists_cost frows centers inv <= objective frows seeds + 11 * (INR (length rows) * ((INR dim + 4) * powerRZ 2 (-16) * B)).
Proof. exact build_all. Qed.
Print Assumptions C118_build_all.

Example C118_build_all_case : SFltb (f64_of_f32 f32_one) f64_one = false /\ exists centers, ivf_train_build tr_machine tr_draws 1 2 3 tr_conv 2 6 2 f32_one (concat tr_rows) [] = Ok (centers, [[0; 1; 5]; [2; 3; 4]]%nat) /\
    centers = map ints [[1; 1]; [11; 1]]%Z.
Proof. exact tr_all. Qed.

(** C118.  A search of the index just built reads [probe] lists whose centres are the nearest to the query up to an error
    bound, and returns exactly the [k] nearest accepted points in them; with as many lists as there are centres, of all. *)
Theorem C118_search : forall m dr mbs csz (conv : N -> f32) dim nc rate (rows : list (list N)) B, let frows := map (map conv) rows in let train := sample_of rate dr frows in
  machine_ok dim (length rows) mbs (4 * B) m -> draws_ok dr -> (1 <= mbs)%nat -> (1 <= csz)%nat -> (1 <= nc)%nat -> (Z.of_nat dim <= 2 ^ 20)%Z ->
  vectors dim B frows -> 1 <= B <= powerRZ 2 98 -> train <> [] -> few_or_distinct dr (length train) nc ->
  forall centers inv ws q tags labels dist probe k filters indices distances,
  ivf_train_build m dr (nc - 1) mbs csz conv dim (length rows) nc rate (concat rows) [] = Ok (centers, inv) ->
  block_ways_ok dim ws -> vectors dim B [q] -> (probe <= nc)%nat -> (1 <= k)%nat ->
  (filters = [] \/ length (pts_to_labels labels) = length rows) -> finite_distances (length rows) dist -> room k indices distances ->
  exists acc probed ids indices' distances' cmps,
    filter_test (universal_of labels) (pts_to_labels labels) filters acc /\
    length probed = probe /\ NoDup probed /\ (forall c, In c probed -> (c < nc)%nat) /\
    (forall c c', In c probed -> (c' < nc)%nat -> ~ In c' probed -> exact_l2 q (nth c centers []) <= exact_l2 q (nth c' centers []) + (INR dim + 4) * powerRZ 2 (-16) * B) /\
    ivf_search_from (m_nrm2 m) ws (m_pop m) mbs dim (mkIvf (length rows) tags nc inv labels) centers q dist probe k filters indices distances = Ok (indices', distances', length ids, cmps) /\
    is_top_k k (score dist (filter acc (concat (map (fun c => nth c inv []) probed)))) (score dist ids) /\
    (probe = nc -> is_top_k k (score dist (filter acc (seq 0 (length rows)))) (score dist ids)) /\
    holds dist ids indices indices' distances distances'.
Proof. exact search_built. Qed.
Print Assumptions C118_search.

Example C118_search_case : block_ways_ok 2 case_ws /\ vectors 2 1000 [tr_query] /\ finite_distances 6 tr_dist /\ room 2 [0; 0]%nat (Some [f32_zero; f32_zero]) /\
  ivf_search_from exact_nrm2 case_ws pop_all 2 2 (mkIvf 6 [] 2 [[2; 3; 4]; [0; 1; 5]]%nat tr_labels) (map ints [[11; 1]; [1; 0]]%Z) tr_query tr_dist 1 2 [] [0; 0]%nat (Some [f32_zero; f32_zero])
    = Ok ([2; 3]%nat, Some [f32_of_Z 9; f32_of_Z 25], 2%nat, 3%nat).
Proof. exact tr_search. Qed.

(** C118.  If no point is drawn, the build reads outside the sample. *)
Theorem C118_empty_sample : forall m dr fuel mbs csz (conv : N -> f32) dim nc rate (rows : list (list N)) old, (forall r, In r rows -> length r = dim) -> sample_of rate dr (map (map conv) rows) = [] ->
  ivf_train_build m dr fuel mbs csz conv dim (length rows) nc rate (concat rows) old = UB.
Proof. exact build_empty. Qed.
Print Assumptions C118_empty_sample.

(** C118.  And for every rate below 1 this can happen, whatever the points. *)
Theorem C118_rate_refuted : forall rate, f32_valid rate = true -> finite rate -> flt rate f32_one = true -> exists dr, draws_ok dr /\
  forall m fuel mbs csz (conv : N -> f32) dim nc (rows : list (list N)) old, (forall r, In r rows -> length r = dim) -> ivf_train_build m dr fuel mbs csz conv dim (length rows) nc rate (concat rows) old = UB.
Proof. exact rate_fails. Qed.
Print Assumptions C118_rate_refuted.

(** C118.  With no centres the first one is written outside its array. *)
Theorem C118_no_centers_refuted : forall m dr fuel mbs csz (conv : N -> f32) dim rate (rows : list (list N)) old, (forall r, In r rows -> length r = dim) -> (Z.of_nat (length (sample_of rate dr (map (map conv) rows))) <= 2 ^ 23)%Z ->
  ivf_train_build m dr fuel mbs csz conv dim (length rows) 0 rate (concat rows) old = UB.
Proof. exact build_none. Qed.
Print Assumptions C118_no_centers_refuted.

(** C118.  With more than 2^23 points in the sample, a point that is drawn twice leaves a centre unwritten, which is then read. *)
Theorem C118_repeated_refuted : forall m dr fuel mbs csz (conv : N -> f32) dim nc rate (rows : list (list N)) old i j, let t := length (sample_of rate dr (map (map conv) rows)) in
  (forall r, In r rows -> length r = dim) -> (2 ^ 23 < Z.of_nat t)%Z -> (forall i, (i < nc)%nat -> (dr_points dr t i < t)%nat) -> (i < j < nc)%nat -> dr_points dr t i = dr_points dr t j ->
  ivf_train_build m dr fuel mbs csz conv dim (length rows) nc rate (concat rows) old = UB.
Proof. exact repeated_fails. Qed.
Print Assumptions C118_repeated_refuted.

Example C118_repeated_case : exists (rows : list (list N)) dr, draws_ok dr /\ (forall r, In r rows -> length r = 1%nat) /\ let t := length (sample_of f32_one dr (map (map tr_conv) rows)) in
  (2 ^ 23 < Z.of_nat t)%Z /\ (forall i, (i < 2)%nat -> (dr_points dr t i < t)%nat) /\ dr_points dr t 0 = dr_points dr t 1.
Proof. exact tr_repeated. Qed.
