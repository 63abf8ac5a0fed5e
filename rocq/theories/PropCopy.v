(** * Theorems: copies of one vector in the data (C129).

    [same_place]: CopySpec.v; [prune_input_ok], [labels_of]: PruneSpec.v; [dissimilarity]: RngSpec.v; [reports]: SearchSpec.v;
    [holds], [room], [finite_distances]: FlatSpec.v. *)
From Coq Require Import NArith ZArith String List Arith Bool Sorting.Sorted Floats.SpecFloat.
From Verif Require Import Base Float32 PoolModel SortSpec SortInst GraphSpec GreedyModel SearchSpec SearchModel PruneModel PruneSpec BuildModel VamanaModel BuildWitness
  RngModel RngSpec RngWitness ClosestModel ClosestSpec PopInst FlatModel FlatSpec IvfModel LshModel LshProofs CopySpec CopyProofs CopyCases.
Import ListNotations.
Open Scope nat_scope.

(** C129.  Alpha pruning lists at most one of several copies of a vector, unless they are copies of the point itself (or carry labels that the listed one lacks). *)
Theorem C129_one_copy : forall sortf sp prm point far cands,
  sorts sortf -> prune_input_ok sp cands -> fgt f32_zero (bp_alpha prm) = false -> flt (bp_alpha prm) (S754_infinity false) = true ->
  (forall z, In z cands -> ndist z = far (nid z)) ->
  exists out, prune_alpha sortf sp prm point cands [] = Ok out /\
    forall i j x y, i < j -> nth_error out i = Some x -> nth_error out j = Some y -> same_place (sp_pd sp) y x ->
      (sp_filtered sp = false \/ forall l, In l (labels_of sp y) -> In l (labels_of sp x)) -> flt f32_zero (far y) = false.
Proof. exact prune_one_copy. Qed.
Print Assumptions C129_one_copy.

(** C129.  The copies of the point itself among the first C candidates come first in its list, all of them up to R; if there are R of them, nothing else is listed. *)
Theorem C129_own_copies : forall sortf sp prm point cands,
  sorts sortf -> prune_input_ok sp cands -> fgt f32_zero (bp_alpha prm) = false -> (forall z, In z cands -> fle f32_zero (ndist z) = true) ->
  exists rest, prune_alpha sortf sp prm point cands [] =
      Ok (firstn (bp_R prm) (map nid (filter (fun z => negb (nid z =? point) && feq (ndist z) f32_zero) (firstn (bp_C prm) (sortf cands)))) ++ rest) /\
    (bp_R prm <= length (filter (fun z => negb (nid z =? point) && feq (ndist z) f32_zero) (firstn (bp_C prm) (sortf cands))) -> rest = []).
Proof. exact prune_copies. Qed.
Print Assumptions C129_own_copies.

Example C129_prune_case : prune_input_ok heap_space heap_cands /\ fgt f32_zero f12 = false /\ flt f12 (Floats.SpecFloat.S754_infinity false) = true /\
  (forall z, In z heap_cands -> ndist z = heap_pd (nid z) 0) /\ (forall z, In z heap_cands -> fle f32_zero (ndist z) = true) /\
  same_place heap_pd 4 3 /\ same_place heap_pd 2 0 /\
  prune_alpha isort heap_space (mkB 10 5 750 f12 0) 0 heap_cands [] = Ok [1; 2; 3; 6] /\
  prune_alpha isort heap_space (mkB 10 2 750 f12 0) 0 heap_cands [] = Ok [1; 2].
Proof. exact heap_case. Qed.

(** C129.  In a relative neighbourhood graph all copies of one vector are linked with each other, and any other point is linked with at most one of them. *)
Theorem C129_rng : forall sortf sp tags centroid order ix md, rng_input_ok sortf sp tags centroid order -> dissimilarity (sp_pd sp) -> sp_filtered sp = false ->
  rng_build sortf sp tags centroid order = Ok (ix, md) ->
  forall x l, nth_error (ix_graph ix) x = Some l ->
    (forall y, y < sp_n sp -> y <> x -> same_place (sp_pd sp) y x -> In y l) /\
    (forall y z, In y l -> In z l -> y <> z -> same_place (sp_pd sp) y z -> feq (sp_pd sp y x) f32_zero = true \/ feq (sp_pd sp z x) f32_zero = true).
Proof. exact rng_copies. Qed.
Print Assumptions C129_rng.

Example C129_rng_case : rng_input_ok isort rng_space (map (fun i => 100 + i) (seq 0 11)) rng_centroid rng_order /\ dissimilarity (sp_pd rng_space) /\ sp_filtered rng_space = false /\
  same_place (sp_pd rng_space) 2 4 /\
  match rng_build isort rng_space (map (fun i => 100 + i) (seq 0 11)) rng_centroid rng_order with
  | Ok (ix, _) => ix_graph ix = [[6]; [8; 10]; [4; 6; 8]; [10; 5]; [2; 6; 8]; [3; 7]; [0; 2]; [5; 9]; [1; 2]; [7]; [1; 3]]
  | _ => False
  end.
Proof. exact rng_copy_case. Qed.

(** So more than R copies near the start node make an island: 22 copies of one vector and four other points, R 16, alpha 1.2, one thread.  No search, for any query, L and k, reports the other points, nor five of the copies. *)
Theorem C129_island_refuted : exists v ix md, vinput_ok v /\ sp_filtered (vi_sp v) = false /\ sp_n (vi_sp v) = 26 /\ vi_prm v = mkB 30 16 50 f12 0 /\ StronglySorted le (vi_sched v) /\
  (forall a b, a < 22 -> b < 22 -> same_place (sp_pd (vi_sp v)) a b) /\ (forall a b, a < 26 -> 22 <= b < 26 -> a <> b -> fle f32_one (sp_pd (vi_sp v) a b) = true) /\
  vamana_build v = Ok (ix, md) /\
  forall dist L k ind dst, (forall id, is_nan (dist id) = false) -> 1 <= L -> k <= L + 1 -> k <= length ind -> k <= length dst ->
    exists ids ind' dst', vamana_search (vi_sort v) ix dist L k [] ind dst = Ok (ind', dst', length ids) /\
      reports (sp_n (vi_sp v)) (vi_tags v) dist ind' dst' ids /\ forall id, In id ids -> id < 17.
Proof. exact spot_misses. Qed.
Print Assumptions C129_island_refuted.

(** C129.  IVF puts all copies of a vector in the same list. *)
Theorem C129_ivf : forall popf mbs dmat n nc orders, pops popf -> 1 <= n -> 1 <= mbs -> block_orders n 1 (min n mbs) orders ->
  (forall j c, is_nan (dmat j c) = false) -> (forall j, j < n -> exists c, c < nc /\ flt (dmat j c) FLT_MAX = true) ->
  exists inv, ivf_build popf mbs dmat n nc orders [] = Ok inv /\
    forall x y, x < n -> y < n -> (forall c, dmat x c = dmat y c) -> forall l, In l inv -> In x l -> In y l.
Proof. exact ivf_copies. Qed.
Print Assumptions C129_ivf.

(** C129.  LSH: if one copy is reported, so is every other, unless the answer is full with points that are no farther. *)
Theorem C129_lsh : forall dotf data ts planes ix q dist m indices distances,
  (ts <= 64)%N -> l_tags ix = seq 0 (l_n ix) -> lsh_new ix -> 1 <= m -> finite_distances (l_n ix) dist -> room m indices distances ->
  exists ix' ix'' ids i' d' c,
    lsh_build dotf data ts planes ix = Ok ix' /\
    lsh_search dotf ix' q dist m [] indices distances = Ok ((i', d', length ids, c), ix'') /\ holds dist ids indices i' distances d' /\
    forall x y, In x ids -> y < l_n ix -> data y = data x -> In y ids \/ (length ids = m /\ forall z, In z ids -> fle (dist z) (dist y) = true).
Proof. exact lsh_copies. Qed.
Print Assumptions C129_lsh.

Example C129_flat_case : l_tags twins = seq 0 (l_n twins) /\ lsh_new twins /\ finite_distances (l_n twins) twin_far /\ twin 2 = twin 0 /\
  (do ix <- lsh_build seq_dot twin 1 [[[1065353216]]]%N twins; do r <- lsh_search seq_dot ix [f32_of_Z 3] twin_far 3 [] [9; 9; 9] None; Ok (fst r)) = Ok ([3; 2; 0], None, 3, 3) /\
  (do ix <- lsh_build seq_dot twin 1 [[[1065353216]]]%N twins; do r <- lsh_search seq_dot ix [f32_of_Z 3] twin_far 2 [] [9; 9] None; Ok (fst r)) = Ok ([3; 2], None, 2, 3) /\
  IvfModel.ivf_build PopInst.pop_all 10 (fun j c => fmul (fsub (hd f32_zero (twin j)) (f32_of_Z (2 * Z.of_nat c))) (fsub (hd f32_zero (twin j)) (f32_of_Z (2 * Z.of_nat c)))) 4 3 (fun b => list_prod (seq (b * 4) (min 4 (4 - b * 4))) (seq 0 1)) [] = Ok [[0; 1; 2]; []; [3]].
Proof. exact twin_case. Qed.
