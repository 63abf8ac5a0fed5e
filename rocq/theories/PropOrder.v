(** * Theorems: answers depend on the order of the distances, and builds not on the unit (C121).

    [same_order n dist dist']: the two measures agree on which of two points is nearer.  [by_comparisons sortf]: std::sort looks
    at distances only by comparing them.  [fscale j x] is x * 2^j; [ordinary k x]: zero, or at least 2^-40 in size, before and
    after multiplying by 2^k; [fits j x]: below 2^127 before and after multiplying by 2^j (OrderSpec.v).  [rescaled],
    [vectors_input]: the same data in another unit (UnitsSpec.v). *)
From Coq Require Import ZArith String List Arith Bool Floats.SpecFloat.
From Verif Require Import Base Float32 PoolModel SortSpec SortInst GraphSpec GreedyModel SearchModel SearchSpec ClosestModel ClosestSpec FlatModel FlatSpec
  IvfModel PopInst LshModel HnswModel HnswSpec RngModel PruneModel VamanaModel BuildWitness LongerBuilt FusedModel OrderSpec OrderProofs3 UnitsSpec ScaleL2 UnitsProofs UnitsCases.
Import ListNotations.

(** C121.  Two measures that order the points alike give the same answers in the same order; each reports its own distances. *)
Theorem C121_order_vamana : forall sortf ix dist dist' L k filters indices distances, sorts sortf -> by_comparisons sortf -> index_ok ix -> 1 <= L ->
  finite_distances (ix_n ix) dist -> finite_distances (ix_n ix) dist' -> same_order (ix_n ix) dist dist' ->
  (filters = [] \/ length (pts_to_labels (ix_labels ix)) = ix_n ix) -> k <= L + 1 -> k <= length indices -> k <= length distances ->
  exists ids i d d',
    vamana_search sortf ix dist L k filters indices distances = Ok (i, d, length ids) /\ reports (ix_n ix) (ix_tags ix) dist i d ids /\
    vamana_search sortf ix dist' L k filters indices distances = Ok (i, d', length ids) /\ reports (ix_n ix) (ix_tags ix) dist' i d' ids.
Proof. exact vamana_same_order. Qed.
Print Assumptions C121_order_vamana.

Example C121_order_case : same_order 10 (fun a => line_pd a 3) fourth /\ finite_distances 10 (fun a => line_pd a 3) /\ finite_distances 10 fourth.
Proof. exact fourth_case. Qed.
Example C121_sort_case : by_comparisons isort /\ pops_by_comparisons pop_all.
Proof. split; [exact isort_by_comparisons|exact pop_all_by_comparisons]. Qed.

(** C121.  The same for the relative neighbourhood graph. *)
Theorem C121_order_rng : forall sortf ix dist dist' L k filters indices distances i d c, by_comparisons sortf ->
  finite_distances (ix_n ix) dist -> finite_distances (ix_n ix) dist' -> same_order (ix_n ix) dist dist' ->
  rng_search sortf ix dist L k filters indices distances = Ok (i, d, c) ->
  exists d', rng_search sortf ix dist' L k filters indices distances = Ok (i, d', c).
Proof. exact rng_same_order. Qed.
Print Assumptions C121_order_rng.

(** C121.  The same for HNSW. *)
Theorem C121_order_hnsw : forall sortf ix inner dist dist' L k filters indices distances i d c, by_comparisons sortf -> levels_ok (ix :: inner) ->
  finite_distances (ix_n ix) dist -> finite_distances (ix_n ix) dist' -> same_order (ix_n ix) dist dist' ->
  hnsw_search sortf (ix :: inner) dist L k filters indices distances = Ok (i, d, c) ->
  exists d', hnsw_search sortf (ix :: inner) dist' L k filters indices distances = Ok (i, d', c).
Proof. exact hnsw_same_order. Qed.
Print Assumptions C121_order_hnsw.

(** C121.  The same for IVF, if the distances to the centres are ordered alike too; the number of comparisons is the same. *)
Theorem C121_order_ivf : forall popf mbs ix cdist cdist' dist dist' probe k filters indices distances i d c m, pops_by_comparisons popf ->
  (forall a, flt (cdist a) FLT_MAX = true /\ flt (cdist' a) FLT_MAX = true) -> (forall a b, flt (cdist a) (cdist b) = flt (cdist' a) (cdist' b)) ->
  finite_distances (ivf_n ix) dist -> finite_distances (ivf_n ix) dist' -> same_order (ivf_n ix) dist dist' ->
  ivf_search popf mbs ix cdist dist probe k filters indices distances = Ok (i, d, c, m) ->
  exists d', ivf_search popf mbs ix cdist' dist' probe k filters indices distances = Ok (i, d', c, m).
Proof. exact ivf_same_order. Qed.
Print Assumptions C121_order_ivf.

(** C121.  The same for LSH, for the measure that ranks the candidates. *)
Theorem C121_order_lsh : forall dotf ix q dist dist' k filters indices distances i d c m ix2,
  finite_distances (l_n ix) dist -> finite_distances (l_n ix) dist' -> same_order (l_n ix) dist dist' ->
  lsh_search dotf ix q dist k filters indices distances = Ok (i, d, c, m, ix2) ->
  exists d', lsh_search dotf ix q dist' k filters indices distances = Ok (i, d', c, m, ix2).
Proof. exact lsh_same_order. Qed.
Print Assumptions C121_order_lsh.

(** C121.  Every coordinate times 2^k: the computed squared L2 distance, in whatever order the compiler adds and whichever
    products it contracts, is multiplied by exactly 2^2k. *)
Theorem C121_l2_unit : forall k t a b r, Forall (ordinary k) a -> Forall (ordinary k) b -> l2_fused t a b = Ok r -> fits (2 * k) r ->
  l2_fused t (map (fscale k) a) (map (fscale k) b) = Ok (fscale (2 * k) r).
Proof. exact l2_scale. Qed.
Print Assumptions C121_l2_unit.

(** C121.  If every distance is multiplied by 2^j, a Vamana build under the same schedule gives the same index. *)
Theorem C121_build_vamana : forall j v v', by_comparisons (vi_sort v) -> vinput_ok v -> vinput_ok v' -> rescaled_input j v v' -> vamana_build v' = vamana_build v.
Proof. exact units_vamana. Qed.
Print Assumptions C121_build_vamana.

(** C121.  So does the build of a relative neighbourhood graph. *)
Theorem C121_build_rng : forall j sortf sp sp' tags c c' order, by_comparisons sortf -> rescaled j sp sp' -> all_scaled j c c' ->
  rng_build sortf sp' tags c' order = rng_build sortf sp tags c order.
Proof. exact units_rng. Qed.
Print Assumptions C121_build_rng.

(** C121.  So does an HNSW build, if the distances are below FLT_MAX by more than the factor alpha (the list holds the entry
    point at distance FLT_MAX). *)
Theorem C121_build_hnsw : forall j sortf prm sp sp' tags cs cs', by_comparisons sortf -> rescaled j sp sp' -> Forall2 (rescaled_choice j) cs cs' ->
  (bp_rule prm = 0 -> forall a b, roomy (bp_alpha prm) (sp_pd sp a b) /\ roomy (bp_alpha prm) (sp_pd sp' a b)) ->
  (bp_rule prm = 0 -> forall c x, In c cs -> In x (hc_centroid c) -> roomy (bp_alpha prm) x /\ roomy (bp_alpha prm) (fscale j x)) ->
  hnsw_build sortf prm sp' tags cs' = hnsw_build sortf prm sp tags cs.
Proof. exact units_hnsw. Qed.
Print Assumptions C121_build_hnsw.

Example C121_build_case : by_comparisons isort /\ rescaled (2 * -30) (vecs_space 0) (vecs_space (-30)) /\
  Forall2 (rescaled_choice (2 * -30)) [vecs_choice 0] [vecs_choice (-30)] /\
  (forall a b, roomy f12 (sp_pd (vecs_space 0) a b) /\ roomy f12 (sp_pd (vecs_space (-30)) a b)) /\
  (forall x, In x (hc_centroid (vecs_choice 0)) -> roomy f12 x /\ roomy f12 (fscale (2 * -30) x)) /\
  (do r <- rng_build isort (vecs_space (-30)) (seq 100 16) (hc_centroid (vecs_choice (-30))) (seq 0 16); Ok (length (ix_graph (fst r)), snd r)) = Ok (16, 4) /\
  (do r <- hnsw_build isort (mkB 10 4 750 f12 0) (vecs_space (-30)) (seq 100 16) [vecs_choice (-30)]; Ok (map (fun ix => firstn 3 (ix_graph ix)) r)) = Ok [[[2; 10; 11]; [3; 8; 13; 2]; [0; 4; 1; 7]]].
Proof. exact graphs_case. Qed.

(** C121.  Together: float vectors in two units, indexed by Vamana with the same schedule and searched with the same parameters:
    the same index, the same answers, and distances that differ by exactly the factor 2^2k. *)
Theorem C121_vectors : forall k t data v v' q,
  Forall (Forall (ordinary k)) data -> Forall (ordinary k) q -> (forall a b, fits (2 * k) (among t data a b)) -> (forall id, fits (2 * k) (from t data q id)) ->
  by_comparisons (vi_sort v) -> vinput_ok v -> vectors_input k t data v v' ->
  vamana_build v' = vamana_build v /\
  forall ix md L kk filters indices distances, vamana_build v = Ok (ix, md) -> 1 <= L -> kk <= L + 1 -> kk <= length indices -> kk <= length distances ->
    (filters = [] \/ length (pts_to_labels (ix_labels ix)) = ix_n ix) ->
    exists ids i d d',
      vamana_search (vi_sort v) ix (from t data q) L kk filters indices distances = Ok (i, d, length ids) /\ reports (ix_n ix) (ix_tags ix) (from t data q) i d ids /\
      vamana_search (vi_sort v) ix (from t (map (in_unit k) data) (in_unit k q)) L kk filters indices distances = Ok (i, d', length ids) /\
      forall r x, r < length ids -> nth_error d r = Some x -> nth_error d' r = Some (fscale (2 * k) x).
Proof. exact vector_units. Qed.
Print Assumptions C121_vectors.

Example C121_vectors_case : Forall (Forall (ordinary 10)) vecs /\ Forall (ordinary 10) asked /\
  (forall a b, fits (2 * 10) (among three vecs a b)) /\ (forall id, fits (2 * 10) (from three vecs asked id)) /\
  by_comparisons (vi_sort (vecs_input 0)) /\ vinput_ok (vecs_input 0) /\ vectors_input 10 three vecs (vecs_input 0) (vecs_input 10) /\
  vamana_build (vecs_input 0) = Ok (place_index, 2) /\ vamana_build (vecs_input 10) = Ok (place_index, 2) /\
  vamana_search isort place_index (from three vecs asked) 10 2 [] [0; 0] [f32_zero; f32_zero] = Ok ([108; 105], [f32_of_Z 14; f32_of_Z 20], 2) /\
  vamana_search isort place_index (from three (map (in_unit 10) vecs) (in_unit 10 asked)) 10 2 [] [0; 0] [f32_zero; f32_zero] =
    Ok ([108; 105], [f32_of_Z 14680064; f32_of_Z 20971520], 2).
Proof. exact vectors_case. Qed.

(** For a factor that is not a power of two it fails: with every coordinate tripled, exactly, the other of two points is reported. *)
Theorem C121_factor_three_refuted : exists ix t data q, index_ok ix /\ contracts (DistModel.RAdd (DistModel.RItem 0) (DistModel.RItem 1)) t /\
  vamana_search isort ix (from t data q) 2 1 [] [0] [f32_zero] = Ok ([101], [f32_of_Z 25378072], 1) /\
  vamana_search isort ix (from t (map tripled data) (tripled q)) 2 1 [] [0] [f32_zero] = Ok ([100], [f32_of_Z 228402656], 1) /\
  from t data q 0 = f32_of_Z 25378074 /\ from t (map tripled data) (tripled q) 1 = f32_of_Z 228402672.
Proof. exact factor_three. Qed.
Print Assumptions C121_factor_three_refuted.

(** And for coordinates whose squares are too small for a float. *)
Theorem C121_too_small_refuted : exists ix t data q k, index_ok ix /\ contracts (DistModel.RItem 0) t /\
  Forall (Forall (fun x => x = f32_of_Z 1 \/ x = f32_of_Z 2)) data /\ (forall v x, In v data -> In x v -> valid_binary prec emax (fscale k x) = true) /\
  vamana_search isort ix (from t data q) 2 1 [] [0] [f32_zero] = Ok ([100], [f32_of_Z 1], 1) /\
  vamana_search isort ix (from t (map (in_unit k) data) (in_unit k q)) 2 1 [] [0] [f32_zero] = Ok ([101], [f32_zero], 1).
Proof. exact too_small. Qed.
Print Assumptions C121_too_small_refuted.
