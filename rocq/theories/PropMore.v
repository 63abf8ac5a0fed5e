(** * Theorems: filter lists with more labels, and with repeated ones (C127).

    [asks_more]: MoreSpec.v; [sorted_labels]: FilterSpec.v; [no_worse], [no_ties]: LongerSpec.v; [reports]: SearchSpec.v;
    [holds], [room], [finite_distances]: FlatSpec.v. *)
From Coq Require Import NArith ZArith String List Arith Bool Floats.SpecFloat.
From Verif Require Import Base Float32 PoolModel TopKSpec SortSpec SortInst FilterSpec GreedyModel SearchSpec SearchModel ClosestModel ClosestSpec PopInst FlatModel FlatSpec
  IvfModel IvfProofs LshModel LshSpec LshProofs LongerSpec LongerCases MoreSpec MoreProofs MoreCases.
Import ListNotations.
Open Scope string_scope.

(** C127.  IVF: with more labels in the (sorted) filter list, or none at all, no answer gets worse, and no fewer points are compared. *)
Theorem C127_ivf : forall popf mbs ix cdist dist probe m fs fs' indices distances,
  pops popf -> 1 <= mbs -> ivf_ok ix -> probe <= ivf_nc ix -> 1 <= m ->
  length (pts_to_labels (ivf_labels ix)) = ivf_n ix -> (forall ls, In ls (pts_to_labels (ivf_labels ix)) -> sorted_labels ls) ->
  asks_more fs fs' -> sorted_labels fs' ->
  (forall c, is_nan (cdist c) = false) -> (exists c, c < ivf_nc ix /\ flt (cdist c) FLT_MAX = true) ->
  finite_distances (ivf_n ix) dist -> room m indices distances ->
  exists ids i1 d1 c1 ids' i2 d2 c2,
    ivf_search popf mbs ix cdist dist probe m fs indices distances = Ok (i1, d1, length ids, c1) /\ holds dist ids indices i1 distances d1 /\
    ivf_search popf mbs ix cdist dist probe m fs' indices distances = Ok (i2, d2, length ids', c2) /\ holds dist ids' indices i2 distances d2 /\
    no_worse dist ids ids' /\ c1 <= c2.
Proof. exact ivf_more_labels. Qed.
Print Assumptions C127_ivf.

Example C127_ivf_case : ivf_ok rack /\ (forall ls, In ls (pts_to_labels (ivf_labels rack)) -> sorted_labels ls) /\ finite_distances (ivf_n rack) rack_far /\
  asks_more ["c"] ["b"; "c"] /\ asks_more ["b"; "c"] [] /\ sorted_labels ["b"; "c"] /\
  ivf_search pop_all 10 rack rack_centers rack_far 2 2 ["c"] [9; 9] None = Ok ([2; 9], None, 1, 1) /\
  ivf_search pop_all 10 rack rack_centers rack_far 2 2 ["b"; "c"] [9; 9] None = Ok ([1; 2], None, 2, 2) /\
  ivf_search pop_all 10 rack rack_centers rack_far 2 2 ["b"; "b"; "c"] [9; 9] None = Ok ([1; 2], None, 2, 2) /\
  ivf_search pop_all 10 rack rack_centers rack_far 2 2 [] [9; 9] None = Ok ([0; 3], None, 2, 4).
Proof. exact rack_case. Qed.

(** C127.  LSH: the same. *)
Theorem C127_lsh : forall dotf data ts planes ix q dist m fs fs' indices distances,
  (ts <= 64)%N -> l_tags ix = seq 0 (l_n ix) -> lsh_new ix -> 1 <= m ->
  length (pts_to_labels (l_labels ix)) = l_n ix -> (forall ls, In ls (pts_to_labels (l_labels ix)) -> sorted_labels ls) ->
  asks_more fs fs' -> sorted_labels fs' ->
  finite_distances (l_n ix) dist -> room m indices distances ->
  exists ix' ids i1 d1 c1 ix1 ids' i2 d2 c2 ix2,
    lsh_build dotf data ts planes ix = Ok ix' /\
    lsh_search dotf ix' q dist m fs indices distances = Ok ((i1, d1, length ids, c1), ix1) /\ holds dist ids indices i1 distances d1 /\
    lsh_search dotf ix' q dist m fs' indices distances = Ok ((i2, d2, length ids', c2), ix2) /\ holds dist ids' indices i2 distances d2 /\
    no_worse dist ids ids' /\ c1 <= c2.
Proof. exact lsh_more_labels. Qed.
Print Assumptions C127_lsh.

Example C127_lsh_case : l_tags sieve = seq 0 (l_n sieve) /\ lsh_new sieve /\ length (pts_to_labels (l_labels sieve)) = l_n sieve /\
  (forall ls, In ls (pts_to_labels (l_labels sieve)) -> sorted_labels ls) /\ finite_distances (l_n sieve) rack_far /\
  exists ix', lsh_build sieve_dot (fun _ => []) 0 [[]] sieve = Ok ix' /\
    (do r <- lsh_search sieve_dot ix' [] rack_far 2 ["c"] [9; 9] None; Ok (fst r)) = Ok ([2; 9], None, 1, 1) /\
    (do r <- lsh_search sieve_dot ix' [] rack_far 2 ["b"; "c"] [9; 9] None; Ok (fst r)) = Ok ([1; 2], None, 2, 2).
Proof. exact sieve_case. Qed.

(** C127.  Vamana: the same, if the search list has room for every point and the filter list is not dropped altogether. *)
Theorem C127_vamana : forall sortf ix dist L k fs fs' indices distances,
  sorts sortf -> index_ok ix -> (forall id, is_nan (dist id) = false) ->
  length (pts_to_labels (ix_labels ix)) = ix_n ix -> (forall ls, In ls (pts_to_labels (ix_labels ix)) -> sorted_labels ls) ->
  fs <> [] -> (forall x, In x fs -> In x fs') -> sorted_labels fs' -> ix_n ix <= L -> length fs <= L -> length fs' <= L ->
  k <= L + 1 -> k <= length indices -> k <= length distances ->
  exists ids i1 d1 ids' i2 d2,
    vamana_search sortf ix dist L k fs indices distances = Ok (i1, d1, length ids) /\ reports (ix_n ix) (ix_tags ix) dist i1 d1 ids /\
    vamana_search sortf ix dist L k fs' indices distances = Ok (i2, d2, length ids') /\ reports (ix_n ix) (ix_tags ix) dist i2 d2 ids' /\
    no_worse dist ids ids'.
Proof. exact vamana_more_labels. Qed.
Print Assumptions C127_vamana.

Example C127_vamana_case : index_ok yard /\ (forall ls, In ls (pts_to_labels (ix_labels yard)) -> sorted_labels ls) /\ sorted_labels ["a"; "b"] /\
  (forall x, In x ["a"] -> In x ["a"; "b"]) /\
  vamana_search isort yard yard_far 4 2 ["a"] [0; 0] [f32_zero; f32_zero] = Ok ([102; 100], [f32_of_Z 1; f32_of_Z 10], 2) /\
  vamana_search isort yard yard_far 4 2 ["a"; "b"] [0; 0] [f32_zero; f32_zero] = Ok ([102; 103], [f32_of_Z 1; f32_of_Z 5], 2).
Proof. exact yard_case. Qed.

(** C127.  A label given twice in a row changes nothing, whatever the index and the list. *)
Theorem C127_repeat_vamana : forall sortf ix dist L k fs1 x fs2 indices distances,
  vamana_search sortf ix dist L k (fs1 ++ x :: x :: fs2) indices distances = vamana_search sortf ix dist L k (fs1 ++ x :: fs2) indices distances.
Proof. exact vamana_repeat. Qed.
Print Assumptions C127_repeat_vamana.

(** C127.  IVF. *)
Theorem C127_repeat_ivf : forall popf mbs ix cdist dist probe m fs1 x fs2 indices distances,
  ivf_search popf mbs ix cdist dist probe m (fs1 ++ x :: x :: fs2) indices distances = ivf_search popf mbs ix cdist dist probe m (fs1 ++ x :: fs2) indices distances.
Proof. exact ivf_repeat. Qed.
Print Assumptions C127_repeat_ivf.

(** C127.  LSH. *)
Theorem C127_repeat_lsh : forall dotf ix q dist m fs1 x fs2 indices distances,
  lsh_search dotf ix q dist m (fs1 ++ x :: x :: fs2) indices distances = lsh_search dotf ix q dist m (fs1 ++ x :: fs2) indices distances.
Proof. exact lsh_repeat. Qed.
Print Assumptions C127_repeat_lsh.

(** With a short search list one more label can lose the nearest point. *)
Theorem C127_narrow_refuted : exists ix dist fs fs' L indices distances, index_ok ix /\ (forall id, is_nan (dist id) = false) /\ no_ties (ix_n ix) dist /\
  length (pts_to_labels (ix_labels ix)) = ix_n ix /\ (forall ls, In ls (pts_to_labels (ix_labels ix)) -> sorted_labels ls) /\
  fs <> [] /\ (forall x, In x fs -> In x fs') /\ sorted_labels fs' /\ length fs' <= L /\
  vamana_search isort ix dist L 1 fs indices distances = Ok ([102], [f32_of_Z 1], 1) /\
  vamana_search isort ix dist L 1 fs' indices distances = Ok ([103], [f32_of_Z 5], 1).
Proof. exact narrow_worse. Qed.
Print Assumptions C127_narrow_refuted.

(** Without filters a search may miss a point that it finds with a filter, even with room for every point. *)
Theorem C127_dropped_refuted : exists ix dist fs L indices distances, index_ok ix /\ (forall id, is_nan (dist id) = false) /\ no_ties (ix_n ix) dist /\
  length (pts_to_labels (ix_labels ix)) = ix_n ix /\ (forall ls, In ls (pts_to_labels (ix_labels ix)) -> sorted_labels ls) /\ ix_n ix <= L /\
  vamana_search isort ix dist L 1 fs indices distances = Ok ([102], [f32_of_Z 1], 1) /\
  vamana_search isort ix dist L 1 [] indices distances = Ok ([103], [f32_of_Z 5], 1).
Proof. exact dropped_worse. Qed.
Print Assumptions C127_dropped_refuted.

(** A label added out of order loses a point that is found without it. *)
Theorem C127_unsorted_refuted : exists popf mbs ix cdist dist probe m fs fs' indices distances, pops popf /\ ivf_ok ix /\
  (forall ls, In ls (pts_to_labels (ivf_labels ix)) -> sorted_labels ls) /\ length (pts_to_labels (ivf_labels ix)) = ivf_n ix /\ finite_distances (ivf_n ix) dist /\
  asks_more fs fs' /\ probe = ivf_nc ix /\
  ivf_search popf mbs ix cdist dist probe m fs indices distances = Ok ([1], None, 1, 2) /\
  ivf_search popf mbs ix cdist dist probe m fs' indices distances = Ok ([2], None, 1, 1) /\ flt (dist 1) (dist 2) = true.
Proof. exact unsorted_worse. Qed.
Print Assumptions C127_unsorted_refuted.
