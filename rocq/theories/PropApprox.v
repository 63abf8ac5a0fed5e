(** * Theorems: answers within a factor of the best (C123).

    [metric], [shortcuts], [ordered_within], [near_best], [guarantee], [clear_vectors], [rounding], [exact_squares],
    [all_others]: ApproxSpec.v. *)
From Coq Require Import ZArith Reals String List Arith Bool Sorting.Permutation Floats.SpecFloat.
From Verif Require Import Base Float32 PoolModel SortSpec SortInst GraphSpec GreedyModel SearchSpec SearchModel HnswModel HnswSpec PruneModel BuildModel VamanaModel LongerBuilt RngModel RngProofs FilterSpec DistSpec DistModel FusedModel
  DivFacts RealSpec MeanSpec UnitsSpec UnitsCases ApproxSpec ApproxProofs ApproxProofs2 ApproxProofs3 ApproxCases.
Import ListNotations.

(** C123.  Vamana without filters, for any list L of at least k: if the graph has shortcuts of factor alpha, each of the k answers is no
    farther than (alpha + 1) / (alpha - 1) times the one of that rank in an exhaustive search (c = 1: distances ordered right). *)
Theorem C123_vamana_plain : forall sortf ix dist L k indices distances apart away alpha c,
  sorts sortf -> index_ok ix -> 1 <= L -> (forall id, is_nan (dist id) = false) ->
  k <= L -> k <= length indices -> k <= length distances ->
  metric (ix_n ix) apart away -> shortcuts (fun _ => true) (ix_n ix) apart alpha (ix_graph ix) -> ordered_within c (ix_n ix) away dist -> (1 <= c)%R -> (c < alpha)%R ->
  exists ids indices' distances',
    vamana_search sortf ix dist L k [] indices distances = Ok (indices', distances', length ids) /\
    reports (ix_n ix) (ix_tags ix) dist indices' distances' ids /\
    near_best (fun _ => true) (ix_n ix) away (guarantee c alpha) k ids.
Proof. exact vamana_near_plain. Qed.
Print Assumptions C123_vamana_plain.

Example C123_vamana_case : vinput_ok spot_input /\ of_vectors three spot_vecs (vi_sp spot_input) /\ vamana_build spot_input = Ok (spot_index, 13) /\ index_ok spot_index /\
  metric 12 (fun x y => l2_dist (nth x spot_vecs []) (nth y spot_vecs [])) (fun x => l2_dist (nth x spot_vecs []) spot_query) /\
  shortcuts (fun _ => true) 12 (fun x y => l2_dist (nth x spot_vecs []) (nth y spot_vecs [])) 2 (ix_graph spot_index) /\
  ordered_within 1 12 (fun x => l2_dist (nth x spot_vecs []) spot_query) (from three spot_vecs spot_query) /\
  (forall id, is_nan (from three spot_vecs spot_query id) = false) /\ guarantee 1 2 = 3%R.
Proof. exact spot_case. Qed.

Example C123_vamana_found : vamana_search isort spot_index (from three spot_vecs spot_query) 1 1 [] [0] [f32_zero] = Ok ([111], [f32_of_Z 86], 1).
Proof. exact spot_found. Qed.

(** C123.  With filters, among the accepted points, if the medoids of the filters are accepted and the shortcuts stay among
    accepted points. *)
Theorem C123_vamana : forall sortf ix dist L k filters indices distances apart away alpha c,
  sorts sortf -> index_ok ix -> 1 <= L -> (forall id, is_nan (dist id) = false) ->
  (filters = [] \/ length (pts_to_labels (ix_labels ix)) = ix_n ix) ->
  k <= L -> k <= length indices -> k <= length distances -> length filters <= L ->
  exists acc starts, filter_test (universal_of (ix_labels ix)) (pts_to_labels (ix_labels ix)) filters acc /\
    (filters = [] -> starts = [ix_start ix]) /\
    (filters <> [] -> forall id, In id starts <-> exists x, In x filters /\ medoid_of (ix_medoids ix) x = Some id) /\
    (starts <> [] -> (forall x, In x starts -> acc x = true) ->
     metric (ix_n ix) apart away -> shortcuts acc (ix_n ix) apart alpha (ix_graph ix) -> ordered_within c (ix_n ix) away dist -> (1 <= c)%R -> (c < alpha)%R ->
     exists ids indices' distances',
       vamana_search sortf ix dist L k filters indices distances = Ok (indices', distances', length ids) /\
       reports (ix_n ix) (ix_tags ix) dist indices' distances' ids /\
       near_best acc (ix_n ix) away (guarantee c alpha) k ids).
Proof. exact vamana_near. Qed.
Print Assumptions C123_vamana.

(** C123.  The relative neighbourhood graph. *)
Theorem C123_rng : forall sortf ix dist L k filters indices distances apart away alpha c,
  sorts sortf -> index_ok ix -> 1 <= L -> (forall id, is_nan (dist id) = false) ->
  k <= L -> k <= length indices -> k <= length distances ->
  metric (ix_n ix) apart away -> shortcuts (fun _ => true) (ix_n ix) apart alpha (ix_graph ix) -> ordered_within c (ix_n ix) away dist -> (1 <= c)%R -> (c < alpha)%R ->
  exists ids indices' distances',
    rng_search sortf ix dist L k filters indices distances = Ok (indices', distances', length ids) /\
    reports (ix_n ix) (ix_tags ix) dist indices' distances' ids /\
    near_best (fun _ => true) (ix_n ix) away (guarantee c alpha) k ids.
Proof. exact rng_near. Qed.
Print Assumptions C123_rng.

(** C123.  HNSW: shortcuts of the lowest level are enough, whatever the levels above lead to. *)
Theorem C123_hnsw : forall sortf ix inner dist L k filters indices distances apart away alpha c,
  sorts sortf -> levels_ok (ix :: inner) -> (forall id, is_nan (dist id) = false) ->
  1 <= k <= L -> k <= length indices -> k <= length distances ->
  metric (ix_n ix) apart away -> shortcuts (fun _ => true) (ix_n ix) apart alpha (ix_graph ix) -> ordered_within c (ix_n ix) away dist -> (1 <= c)%R -> (c < alpha)%R ->
  exists ids indices' distances',
    hnsw_search sortf (ix :: inner) dist L k filters indices distances = Ok (indices', distances', length ids) /\
    reports (ix_n ix) (ix_tags ix) dist indices' distances' ids /\
    near_best (fun _ => true) (ix_n ix) away (guarantee c alpha) k ids.
Proof. exact hnsw_near. Qed.
Print Assumptions C123_hnsw.

(** What RelativeNG builds has no such shortcuts: an answer 1000 times as far as the nearest point. *)
Theorem C123_rng_refuted : exists data q sp cent ix md, length data = 10 /\ of_vectors three data sp /\ rng_input_ok isort sp (seq 100 10) cent (seq 0 10) /\
  rng_build isort sp (seq 100 10) cent (seq 0 10) = Ok (ix, md) /\
  rng_search isort ix (from three data q) 8 1 [] [0] [f32_zero] = Ok ([100], [f32_of_Z 1000000], 1) /\
  l2_dist (nth 0 data []) q = 1000%R /\ l2_dist (nth 9 data []) q = 1%R.
Proof. exact rng_far. Qed.
Print Assumptions C123_rng_refuted.

(** Nor has what Vamana builds with alpha 4: lists are pruned from the points a search visited. *)
Theorem C123_vamana_refuted : exists data q v ix md, length data = 10 /\ of_vectors three data (vi_sp v) /\ vinput_ok v /\ bp_L (vi_prm v) = 20 /\ bp_R (vi_prm v) = 40 /\ bp_C (vi_prm v) = 750 /\ bp_alpha (vi_prm v) = f32_of_Z 4 /\
  vamana_build v = Ok (ix, md) /\ vamana_search (vi_sort v) ix (from three data q) 8 1 [] [0] [f32_zero] = Ok ([100], [f32_of_Z 1000000], 1) /\
  l2_dist (nth 0 data []) q = 1000%R /\ l2_dist (nth 9 data []) q = 1%R.
Proof. exact vamana_far. Qed.
Print Assumptions C123_vamana_refuted.

Local Open Scope R_scope.

(** C123.  The Euclidean distance is such a metric. *)
Theorem C123_metric : forall dim n data q, length q = dim -> (forall x, (x < n)%nat -> length (nth x data []) = dim) ->
  metric n (fun x y => l2_dist (nth x data []) (nth y data [])) (fun x => l2_dist (nth x data []) q).
Proof. exact l2_metric. Qed.
Print Assumptions C123_metric.

(** C123.  Vectors of floats, with the rounding of the computed distances in any order of summation, fused or not. *)
Theorem C123_vamana_l2 : forall sortf ix L k indices distances t dim f data q alpha,
  sorts sortf -> index_ok ix -> (1 <= L)%nat -> length data = ix_n ix ->
  Permutation (red_items t) (seq 0 dim) -> contracts t f -> clear_vectors dim f data q -> (forall id, is_nan (from f data q id) = false) ->
  (k <= L)%nat -> (k <= length indices)%nat -> (k <= length distances)%nat ->
  shortcuts (fun _ => true) (ix_n ix) (fun x y => l2_dist (nth x data []) (nth y data [])) alpha (ix_graph ix) -> rounding dim < alpha ->
  exists ids indices' distances',
    vamana_search sortf ix (from f data q) L k [] indices distances = Ok (indices', distances', length ids) /\
    reports (ix_n ix) (ix_tags ix) (from f data q) indices' distances' ids /\
    near_best (fun _ => true) (ix_n ix) (fun x => l2_dist (nth x data []) q) (guarantee (rounding dim) alpha) k ids.
Proof. exact vamana_l2_near. Qed.
Print Assumptions C123_vamana_l2.

Example C123_l2_case : clear_vectors 3 three spot_vecs spot_query /\ (rounding 3 < 2)%R.
Proof. exact spot_clear. Qed.

(** C123.  Vectors of integers with squared distances up to 2^24: nothing is lost to rounding. *)
Theorem C123_ints : forall t dim f (data : list (list f32)) (q : list f32) zs zq, Permutation (red_items t) (seq 0 dim) -> contracts t f -> length q = dim -> holds_ints q zq ->
  (forall x, In x q -> valid_binary 24 128 x = true) -> Forall2 holds_ints data zs -> (forall v, In v data -> length v = dim /\ forall x, In x v -> valid_binary 24 128 x = true) ->
  (forall z, In z zs -> sq_dist z zq <= 2 ^ 24)%Z ->
  ordered_within 1 (length data) (fun x => l2_dist (nth x data []) q) (from f data q).
Proof. exact l2_ordered_ints. Qed.
Print Assumptions C123_ints.

(** C123.  Where the shortcuts come from: pruning all the points with room for them, alpha being compared with a quotient of
    squared distances, leaves shortcuts of factor sqrt(alpha). *)
Theorem C123_prune : forall sortf sp prm apart g, sorts sortf -> exact_squares sp apart ->
  (sp_filtered sp = true -> length (pts_to_labels (sp_labels sp)) = sp_n sp) ->
  (sp_n sp <= bp_R prm)%nat -> (sp_n sp <= bp_C prm)%nat -> f32_valid (bp_alpha prm) = true -> finite (bp_alpha prm) -> 1 <= real (bp_alpha prm) ->
  (forall x, (x < sp_n sp)%nat -> exists cands l, all_others sp x cands /\ prune_alpha sortf sp prm x cands [] = Ok l /\ nth_error g x = Some l) ->
  shortcuts (fun _ => true) (sp_n sp) apart (sqrt (real (bp_alpha prm))) g.
Proof. exact full_prune_shortcuts. Qed.
Print Assumptions C123_prune.

Local Close Scope R_scope.

Example C123_prune_case : exact_squares spot_space (fun x y => l2_dist (nth x spot_vecs []) (nth y spot_vecs [])) /\ sp_filtered spot_space = true /\
  length (pts_to_labels (sp_labels spot_space)) = 12 /\ (forall ls, In ls (pts_to_labels (sp_labels spot_space)) -> sorted_labels ls) /\ sorted_labels ["a"%string] /\
  (forall x, x < 12 -> exists cands l, all_others spot_space x cands /\ prune_alpha isort spot_space spot_prm x cands [] = Ok l /\ nth_error spot_lists x = Some l) /\
  sp_n spot_space <= bp_R spot_prm /\ sp_n spot_space <= bp_C spot_prm /\ valid_binary 24 128 (bp_alpha spot_prm) = true /\ finite (bp_alpha spot_prm) /\ (1 <= real (bp_alpha spot_prm))%R /\
  sqrt (real (bp_alpha spot_prm)) = 2%R /\ map (@length nat) spot_lists = [8; 9; 8; 7; 7; 9; 9; 7; 7; 8; 9; 8].
Proof. exact spot_prune_case. Qed.

Local Open Scope R_scope.

(** C123.  With labels the shortcuts stay among the points a filter accepts. *)
Theorem C123_prune_filtered : forall sortf sp prm apart g filters acc, sorts sortf -> exact_squares sp apart -> sp_filtered sp = true ->
  length (pts_to_labels (sp_labels sp)) = sp_n sp -> sorted_labels filters -> (forall ls, In ls (pts_to_labels (sp_labels sp)) -> sorted_labels ls) ->
  filter_test (universal_of (sp_labels sp)) (pts_to_labels (sp_labels sp)) filters acc ->
  (sp_n sp <= bp_R prm)%nat -> (sp_n sp <= bp_C prm)%nat -> f32_valid (bp_alpha prm) = true -> finite (bp_alpha prm) -> 1 <= real (bp_alpha prm) ->
  (forall x, (x < sp_n sp)%nat -> exists cands l, all_others sp x cands /\ prune_alpha sortf sp prm x cands [] = Ok l /\ nth_error g x = Some l) ->
  shortcuts acc (sp_n sp) apart (sqrt (real (bp_alpha prm))) g.
Proof. exact full_prune_filtered. Qed.
Print Assumptions C123_prune_filtered.
