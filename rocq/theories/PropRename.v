(** * Theorems: the order of the vectors in the data file (C124).

    [renumbering], [moved], [moved_graph], [renumbered], [reordered], [levels_renumbered], [values_differ],
    [by_distances_only]: RenameSpec.v; [no_ties]: LongerSpec.v. *)
From Coq Require Import ZArith String List Arith Bool NArith.
From Verif Require Import Base Float32 PoolModel SortSpec SortInst TopKSpec GraphSpec GreedyModel SearchSpec SearchModel PruneModel BuildModel VamanaModel RngModel HnswModel HnswSpec ClosestSpec FlatSpec IvfModel IvfProofs PopInst
  LshModel LshProofs LongerSpec LongerBuilt LongerCases RenameSpec RenameProofs RenameProofs2 RenameProofs3 RenameCases.
Import ListNotations.

(** C124.  Vamana: an object with the points under other numbers reports the same tags and distances, with or without filters,
    ties or not. *)
Theorem C124_vamana : forall sortf p ix ix' dist dist' L k filters indices distances indices' distances',
  sorts sortf -> by_distances_only sortf -> index_ok ix -> renumbered p ix ix' ->
  (filters = [] \/ moved (ix_n ix) p (pts_to_labels (ix_labels ix)) (pts_to_labels (ix_labels ix'))) ->
  finite_distances (ix_n ix) dist -> finite_distances (ix_n ix) dist' -> (forall x, x < ix_n ix -> dist' (p x) = dist x) ->
  1 <= L -> k <= L + 1 -> k <= length indices -> k <= length distances -> k <= length indices' -> k <= length distances' ->
  exists i d i' d' c, vamana_search sortf ix dist L k filters indices distances = Ok (i, d, c) /\
    vamana_search sortf ix' dist' L k filters indices' distances' = Ok (i', d', c) /\ c <= k /\ firstn c i' = firstn c i /\ firstn c d' = firstn c d.
Proof. exact vamana_renumbered. Qed.
Print Assumptions C124_vamana.

Example C124_vamana_case : index_ok gate /\ renumbered flip gate gate' /\ by_distances_only isort /\
  moved (ix_n gate) flip (pts_to_labels (ix_labels gate)) (pts_to_labels (ix_labels gate')) /\
  finite_distances (ix_n gate) gate_far /\ finite_distances (ix_n gate) gate_far' /\ (forall x, x < ix_n gate -> gate_far' (flip x) = gate_far x) /\
  seen (vamana_search isort gate gate_far 3 2 ["b"%string] [0; 0] [f32_zero; f32_zero]) = Ok ([103; 104], 2) /\
  seen (vamana_search isort gate' gate_far' 3 2 ["b"%string] [0; 0] [f32_zero; f32_zero]) = Ok ([103; 104], 2).
Proof. exact gate_case. Qed.

(** C124.  The relative neighbourhood graph. *)
Theorem C124_rng : forall sortf p ix ix' dist dist' L k filters indices distances indices' distances',
  sorts sortf -> by_distances_only sortf -> index_ok ix -> renumbered p ix ix' ->
  finite_distances (ix_n ix) dist -> finite_distances (ix_n ix) dist' -> (forall x, x < ix_n ix -> dist' (p x) = dist x) ->
  1 <= L -> k <= L + 1 -> k <= length indices -> k <= length distances -> k <= length indices' -> k <= length distances' ->
  exists i d i' d' c, rng_search sortf ix dist L k filters indices distances = Ok (i, d, c) /\
    rng_search sortf ix' dist' L k filters indices' distances' = Ok (i', d', c) /\ c <= k /\ firstn c i' = firstn c i /\ firstn c d' = firstn c d.
Proof. exact rng_renumbered. Qed.
Print Assumptions C124_rng.

(** C124.  HNSW, every level under other numbers. *)
Theorem C124_hnsw : forall sortf p ps ix inner ix' inner' dist dist' L k filters indices distances indices' distances',
  sorts sortf -> by_distances_only sortf -> levels_ok (ix :: inner) -> levels_renumbered (fun t => t) (p :: ps) (ix :: inner) (ix' :: inner') ->
  finite_distances (ix_n ix) dist -> finite_distances (ix_n ix) dist' -> (forall x, x < ix_n ix -> dist' (p x) = dist x) ->
  1 <= L -> k <= L -> k <= length indices -> k <= length distances -> k <= length indices' -> k <= length distances' ->
  exists i d i' d' c, hnsw_search sortf (ix :: inner) dist L k filters indices distances = Ok (i, d, c) /\
    hnsw_search sortf (ix' :: inner') dist' L k filters indices' distances' = Ok (i', d', c) /\ c <= k /\ firstn c i' = firstn c i /\ firstn c d' = firstn c d.
Proof. exact hnsw_renumbered. Qed.
Print Assumptions C124_hnsw.

Example C124_hnsw_case : levels_ok [gate; cellar] /\ levels_renumbered (fun t => t) [flip; flip3] [gate; cellar] [gate'; cellar'] /\
  seen (hnsw_search isort [gate; cellar] gate_far 2 2 [] [0; 0] [f32_zero; f32_zero]) = Ok ([104; 102], 2) /\
  seen (hnsw_search isort [gate'; cellar'] gate_far' 2 2 [] [0; 0] [f32_zero; f32_zero]) = Ok ([104; 102], 2).
Proof. exact cellar_case. Qed.

(** C124.  RelativeNG builds from reordered data, in any order of its parallel loop, the same object under other numbers, if no two
    points are equally far from a third or from the centroid. *)
Theorem C124_rng_build : forall sortf p sp sp' tags tags' centroid centroid' order order',
  rng_input_ok sortf sp tags centroid order -> rng_input_ok sortf sp' tags' centroid' order' ->
  reordered p sp sp' -> moved (sp_n sp) p tags tags' -> moved (sp_n sp) p centroid centroid' ->
  (forall x, x < sp_n sp -> no_ties (sp_n sp) (fun j => sp_pd sp j x)) -> values_differ centroid ->
  exists ix ix' degree, rng_build sortf sp tags centroid order = Ok (ix, degree) /\ rng_build sortf sp' tags' centroid' order' = Ok (ix', degree) /\
    index_ok ix /\ ix_n ix = sp_n sp /\ ix_tags ix = tags /\ renumbered p ix ix'.
Proof. exact rng_build_renumbered. Qed.
Print Assumptions C124_rng_build.

Example C124_rng_build_case : rng_input_ok isort (spot_space spots) (seq 100 12) spot_centre (seq 0 12) /\
  rng_input_ok isort (spot_space spots') (rev (seq 100 12)) (rev spot_centre) (seq 0 12) /\ reordered back (spot_space spots) (spot_space spots') /\
  moved 12 back (seq 100 12) (rev (seq 100 12)) /\ moved 12 back spot_centre (rev spot_centre) /\
  (forall x, x < 12 -> no_ties 12 (fun j => sp_pd (spot_space spots) j x)) /\ values_differ spot_centre /\
  nth_error (ix_graph spot_rng) 0 = Some [8; 9] /\ nth_error (ix_graph spot_rng') 11 = Some [3; 2] /\
  seen (rng_search isort spot_rng (spot_from spots (18, 1, 4)%Z) 4 2 [] [0; 0] [f32_zero; f32_zero]) = Ok ([105; 103], 2) /\
  seen (rng_search isort spot_rng' (spot_from spots' (18, 1, 4)%Z) 4 2 [] [0; 0] [f32_zero; f32_zero]) = Ok ([105; 103], 2).
Proof. exact spots_rng_case. Qed.

(** C124.  Exhaustive search and ground truth: the numbers of the answers are translated, if there are no ties. *)
Theorem C124_exact : forall n p dist dist' k ids ids', renumbering n p -> (forall x, x < n -> dist' (p x) = dist x) -> no_ties n dist ->
  is_top_k k (score dist (seq 0 n)) (score dist ids) -> is_top_k k (score dist' (seq 0 n)) (score dist' ids') -> ids' = map p ids.
Proof. exact exact_renumbered. Qed.
Print Assumptions C124_exact.

(** C124.  IVF with the same centres and the same points in each list. *)
Theorem C124_ivf : forall popf mbs p ix ix' cdist dist dist' probe m filters indices distances indices' distances',
  pops popf -> 1 <= mbs -> ivf_ok ix -> ivf_n ix' = ivf_n ix -> ivf_nc ix' = ivf_nc ix -> renumbering (ivf_n ix) p ->
  Forall2 (fun l l' => forall y, In y l' <-> exists x, In x l /\ p x = y) (ivf_inv ix) (ivf_inv ix') ->
  universal_label (ivf_labels ix') = universal_label (ivf_labels ix) -> use_universal_label (ivf_labels ix') = use_universal_label (ivf_labels ix) ->
  (filters = [] \/ moved (ivf_n ix) p (pts_to_labels (ivf_labels ix)) (pts_to_labels (ivf_labels ix'))) ->
  probe <= ivf_nc ix -> 1 <= m ->
  (forall c, is_nan (cdist c) = false) -> no_ties (ivf_nc ix) cdist -> (exists c, c < ivf_nc ix /\ flt (cdist c) FLT_MAX = true) ->
  finite_distances (ivf_n ix) dist -> finite_distances (ivf_n ix) dist' -> (forall x, x < ivf_n ix -> dist' (p x) = dist x) -> no_ties (ivf_n ix) dist ->
  room m indices distances -> room m indices' distances' ->
  exists i d i' d' c w,
    ivf_search popf mbs ix cdist dist probe m filters indices distances = Ok (i, d, c, w) /\
    ivf_search popf mbs ix' cdist dist' probe m filters indices' distances' = Ok (i', d', c, w) /\
    c <= m /\ firstn c i' = map p (firstn c i) /\ (forall e e', d = Some e -> d' = Some e' -> firstn c e' = firstn c e).
Proof. exact ivf_renumbered. Qed.
Print Assumptions C124_ivf.

Example C124_ivf_case : ivf_ok bins /\ renumbering (ivf_n bins) flip /\
  Forall2 (fun l l' => forall y, In y l' <-> exists x, In x l /\ flip x = y) (ivf_inv bins) (ivf_inv bins') /\
  no_ties (ivf_nc bins) bin_far /\ (exists c, c < ivf_nc bins /\ flt (bin_far c) FLT_MAX = true) /\ no_ties (ivf_n bins) gate_far /\ pops pop_all /\
  (do r <- ivf_search pop_all 10 bins bin_far gate_far 1 2 [] [9; 9] None; Ok (fst (fst (fst r)))) = Ok [3; 4] /\
  (do r <- ivf_search pop_all 10 bins' bin_far gate_far' 1 2 [] [9; 9] None; Ok (fst (fst (fst r)))) = Ok [1; 0].
Proof. exact bins_case. Qed.

(** C124.  LSH built with the same planes from the reordered data. *)
Theorem C124_lsh : forall dotf p data data' ts planes ix ix0 q dist dist' m filters indices distances indices' distances',
  (ts <= 64)%N -> l_tags ix = seq 0 (l_n ix) -> l_tags ix0 = seq 0 (l_n ix0) -> lsh_new ix -> lsh_new ix0 -> l_n ix0 = l_n ix -> renumbering (l_n ix) p -> 1 <= m ->
  (forall x, x < l_n ix -> data' (p x) = data x) ->
  universal_label (l_labels ix0) = universal_label (l_labels ix) -> use_universal_label (l_labels ix0) = use_universal_label (l_labels ix) ->
  (filters = [] \/ moved (l_n ix) p (pts_to_labels (l_labels ix)) (pts_to_labels (l_labels ix0))) ->
  finite_distances (l_n ix) dist -> finite_distances (l_n ix) dist' -> (forall x, x < l_n ix -> dist' (p x) = dist x) -> no_ties (l_n ix) dist ->
  room m indices distances -> room m indices' distances' ->
  exists a b a' b' i d i' d' c w,
    lsh_build dotf data ts planes ix = Ok a /\ lsh_search dotf a q dist m filters indices distances = Ok ((i, d, c, w), b) /\
    lsh_build dotf data' ts planes ix0 = Ok a' /\ lsh_search dotf a' q dist' m filters indices' distances' = Ok ((i', d', c, w), b') /\
    c <= m /\ firstn c i' = map p (firstn c i) /\ (forall e e', d = Some e -> d' = Some e' -> firstn c e' = firstn c e).
Proof. exact lsh_renumbered. Qed.
Print Assumptions C124_lsh.

Example C124_lsh_case : lsh_new wall /\ renumbering (l_n wall) turn /\ (forall x, x < l_n wall -> nth (turn x) (rev wall_points) [] = nth x wall_points []) /\
  finite_distances (l_n wall) wall_far /\ finite_distances (l_n wall) wall_far' /\ (forall x, x < l_n wall -> wall_far' (turn x) = wall_far x) /\ no_ties (l_n wall) wall_far /\
  (do a <- lsh_build seq_dot (fun x => nth x wall_points []) 2 wall_planes wall; do r <- lsh_search seq_dot a [f32_of_Z 1; f32_of_Z 3] wall_far 2 [] [9; 9] None; Ok (fst (fst (fst (fst r))))) = Ok [1; 0] /\
  (do a <- lsh_build seq_dot (fun x => nth x (rev wall_points) []) 2 wall_planes wall; do r <- lsh_search seq_dot a [f32_of_Z 1; f32_of_Z 3] wall_far' 2 [] [9; 9] None; Ok (fst (fst (fst (fst r))))) = Ok [2; 3].
Proof. exact wall_case. Qed.

(** The Vamana build depends on the order of the data: no ties, one thread, the same parameters, another answer. *)
Theorem C124_vamana_build_refuted : exists p v v' ix ix' md md' q,
  vinput_ok v /\ vinput_ok v' /\ reordered p (vi_sp v) (vi_sp v') /\ moved (sp_n (vi_sp v)) p (vi_tags v) (vi_tags v') /\ moved (sp_n (vi_sp v)) p (vi_centroid v) (vi_centroid v') /\
  vi_prm v' = vi_prm v /\ vi_sort v' = vi_sort v /\ vi_work v = [] /\ vi_work v' = [] /\ vi_sched v' = vi_sched v /\ vi_order v' = vi_order v /\
  (forall x, x < sp_n (vi_sp v) -> no_ties (sp_n (vi_sp v)) (fun j => sp_pd (vi_sp v) j x)) /\ values_differ (vi_centroid v) /\
  no_ties (sp_n (vi_sp v)) (spot_from spots q) /\ (forall x, x < sp_n (vi_sp v) -> spot_from spots' q (p x) = spot_from spots q x) /\
  vamana_build v = Ok (ix, md) /\ vamana_build v' = Ok (ix', md') /\
  vamana_search (vi_sort v) ix (spot_from spots q) 2 1 [] [0] [f32_zero] = Ok ([105], [f32_of_Z 65], 1) /\
  vamana_search (vi_sort v) ix' (spot_from spots' q) 2 1 [] [0] [f32_zero] = Ok ([107], [f32_of_Z 634], 1).
Proof. exact vamana_order_matters. Qed.
Print Assumptions C124_vamana_build_refuted.

(** With ties RelativeNG depends on the order as well: another set of answers. *)
Theorem C124_ties_refuted : exists p sp sp' tags tags' c c' order ix ix' md q,
  rng_input_ok isort sp tags c order /\ rng_input_ok isort sp' tags' c' order /\ reordered p sp sp' /\ moved (sp_n sp) p tags tags' /\ moved (sp_n sp) p c c' /\
  (forall x, x < sp_n sp -> spot_from (rev row) q (p x) = spot_from row q x) /\
  rng_build isort sp tags c order = Ok (ix, md) /\ rng_build isort sp' tags' c' order = Ok (ix', md) /\
  rng_search isort ix (spot_from row q) 3 2 [] [0; 0] [f32_zero; f32_zero] = Ok ([104; 105], [f32_zero; f32_one], 2) /\
  rng_search isort ix' (spot_from (rev row) q) 3 2 [] [0; 0] [f32_zero; f32_zero] = Ok ([104; 103], [f32_zero; f32_one], 2).
Proof. exact ties_matter. Qed.
Print Assumptions C124_ties_refuted.
